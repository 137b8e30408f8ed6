(** Lemmas for the CCIX messages. *)
From Verif Require Import Base BaseFacts TlmModel TlpModel TlpProofs CxsProofs CcixModel CcixSpec.
Open Scope N_scope.

(** ** Words made of fields *)
Definition strip (l : list (N * N * N)) : list (N * N) := map (fun x => (fst (fst x), snd x)) l.
Fixpoint fit (top : N) (l : list (N * N * N)) : Prop :=
  match l with
  | [] => True
  | (s, w, v) :: l' => v < 2 ^ w /\ s + w <= top /\ fit s l'
  end.
Lemma fit_bound l : forall top, fit top l -> place (strip l) < 2 ^ top.
Proof.
  induction l as [|[[s w] v] l IH]; intros top F; cbn [strip map place fst snd].
  - apply pow_pos.
  - destruct F as (V & T & F). specialize (IH s F). fold (strip l).
    assert (P : 2 ^ (s + w) <= 2 ^ top) by (apply N.pow_le_mono_r; [discriminate|exact T]).
    rewrite N.pow_add_r in P. nia.
Qed.
Lemma fields_fit l : forall top, fit top l -> fields l = Ok (place (strip l)).
Proof.
  induction l as [|[[s w] v] l IH]; intros top F; [reflexivity|]. destruct F as (V & T & F).
  cbn [strip map place fst snd]. apply fields_cons; [exact V|apply (IH s F)|apply (fit_bound l s F)].
Qed.
Lemma gf_here s w v y : y < 2 ^ s -> v < 2 ^ w -> get_field s w (v * 2 ^ s + y) = v.
Proof.
  intros Y V. rewrite get_field_div, N.div_add_l by (pose proof (pow_pos s); lia).
  rewrite (N.div_small y) by exact Y. rewrite N.add_0_r. apply N.mod_small. exact V.
Qed.
Lemma gf_low s w t v y : s + w <= t -> get_field s w (v * 2 ^ t + y) = get_field s w y.
Proof.
  intros L. rewrite !get_field_div. replace t with (s + (w + (t - s - w))) by lia.
  rewrite !N.pow_add_r.
  replace (v * (2 ^ s * (2 ^ w * 2 ^ (t - s - w))) + y) with (v * 2 ^ (t - s - w) * 2 ^ w * 2 ^ s + y) by lia.
  rewrite N.div_add_l by (pose proof (pow_pos s); lia).
  rewrite N.add_comm. apply N.mod_add. pose proof (pow_pos w). lia.
Qed.
Lemma fit_in l : forall top s w v, fit top l -> In (s, w, v) l -> s + w <= top /\ v < 2 ^ w.
Proof.
  induction l as [|[[s0 w0] v0] l IH]; intros top s w v F I; [contradiction|]. destruct F as (V & T & F).
  destruct I as [E|I]; [inversion E; subst; split; assumption|]. destruct (IH s0 s w v F I). split; [lia|assumption].
Qed.
Lemma gf_in l : forall top s w v x, x = place (strip l) -> fit top l -> In (s, w, v) l -> get_field s w x = v.
Proof.
  induction l as [|[[s0 w0] v0] l IH]; intros top s w v x E F I; [contradiction|]. subst x.
  cbn [strip map place fst snd]. destruct F as (V & T & F). destruct I as [E|I].
  - inversion E; subst. apply gf_here; [apply (fit_bound l s F)|exact V].
  - destruct (fit_in l s0 s w v F I) as [L _]. rewrite gf_low by exact L. apply (IH s0 s w v _ eq_refl F I).
Qed.
Lemma fields_fail l s w v : In (s, w, v) l -> 2 ^ w <= v -> fields l = AssertFail.
Proof.
  induction l as [|[[s0 w0] v0] l IH]; intros I L; [contradiction|]. cbn [fields]. unfold set_field.
  destruct I as [E|I].
  - inversion E; subst. replace (v <? 2 ^ w) with false by (symmetry; apply N.ltb_ge; exact L). reflexivity.
  - destruct (v0 <? 2 ^ w0); [|reflexivity]. cbn [rbind]. rewrite (IH I L). reflexivity.
Qed.
Lemma fields_cases l : (exists v, fields l = Ok v) \/ fields l = AssertFail.
Proof.
  induction l as [|[[s w] v] l IH]; [left; eexists; reflexivity|]. cbn [fields]. unfold set_field.
  destruct (v <? 2 ^ w); [|right; reflexivity]. cbn [rbind].
  destruct IH as [[y E]|E]; rewrite E; [left; eexists; reflexivity|right; reflexivity].
Qed.

(** ** Reading words *)
Lemma next_word pre w post rest p : p = (4 * length pre)%nat -> w < u32 ->
  next (wire (pre ++ w :: post) ++ rest) p = Ok (w, (4 * S (length pre))%nat).
Proof.
  intros -> W. unfold next. rewrite app_length, wire_length, app_length. cbn [length].
  replace (Nat.leb _ _) with true by (symmetry; apply Nat.leb_le; lia).
  f_equal. f_equal; [|lia]. rewrite wire_app, <- app_assoc. unfold slice.
  replace (4 * length pre)%nat with (length (wire pre)) by apply wire_length.
  rewrite skipn_app_exact. cbn [wire flat_map]. rewrite <- app_assoc.
  rewrite firstn_app_len by apply be_enc_length.
  rewrite be_dec_enc. change (256 ^ N.of_nat 4) with u32. apply N.mod_small. exact W.
Qed.

(** ** Extensions *)
Definition ext_eff (f : list (N * N)) (r : rmsg) : rmsg := extension (place f) r.
Lemma ext_bit b f r : place f < 2 ^ 31 -> extension (place ((31, b) :: f)) r = ext_eff f r.
Proof.
  intros H. unfold ext_eff, extension. cbn [place].
  rewrite !(gf_low _ _ 31) by (vm_compute; discriminate). reflexivity.
Qed.
Lemma exts_run fs : forall pre w r fuel post rest p, (length fs < fuel)%nat -> p = (4 * length pre)%nat ->
  get_field 31 1 w = some_ext fs -> Forall (fun f => place f < 2 ^ 31) fs ->
  exists w', extensions fuel (wire (pre ++ ext_words fs ++ post) ++ rest) w p r =
    Ok (w', (4 * (length pre + length fs))%nat, fold_left (fun r f => ext_eff f r) fs r).
Proof.
  induction fs as [|f fs IH]; intros pre w r fuel post rest p L P E F.
  - destruct fuel as [|fuel]; [cbn in L; lia|]. cbn [extensions]. rewrite E. cbn [some_ext N.eqb].
    exists w. rewrite P. cbn [length]. rewrite Nat.add_0_r. reflexivity.
  - destruct fuel as [|fuel]; [cbn in L; lia|]. cbn [extensions]. rewrite E. cbn [some_ext N.eqb Pos.eqb].
    inversion F as [|? ? F1 F2]; subst.
    cbn [ext_words app]. set (b := match fs with [] => 0 | _ => 1 end).
    assert (B : b < 2 ^ 1) by (subst b; destruct fs; reflexivity).
    assert (W : place ((31, b) :: f) < u32).
    { cbn [place]. change u32 with (2 * 2 ^ 31). change (2 ^ 1) with 2 in B. lia. }
    rewrite next_word by (reflexivity || exact W). cbn [rbind fst snd].
    rewrite ext_bit by exact F1.
    destruct (IH (pre ++ [place ((31, b) :: f)]) (place ((31, b) :: f)) (ext_eff f r) fuel post rest (4 * S (length pre))%nat) as (w' & R).
    + cbn [length] in L. lia.
    + rewrite app_length. cbn [length]. lia.
    + cbn [place]. rewrite gf_here by assumption. subst b. destruct fs; reflexivity.
    + exact F2.
    + exists w'. rewrite <- !app_assoc in R. cbn [app] in R. rewrite R.
      rewrite app_length. cbn [length fold_left]. f_equal. f_equal. f_equal. lia.
Qed.

Ltac fits := cbn [fit]; repeat split; try assumption; try (vm_compute; discriminate); try (vm_compute; reflexivity).
Ltac inl := repeat first [left; reflexivity | right].
Lemma eff0 a t s c r : a < 2 ^ 4 -> t < 2 ^ 6 -> s < 2 ^ 6 -> c < 2 ^ 8 ->
  ext_eff [(20, a); (14, t); (8, s); (0, c)] r =
  set_attr [(TgtID, t); (SrcID, s)] (or_addr (N.lor (N.shiftl a 60) (N.shiftl c 52)) r).
Proof.
  intros A T S C. set (L := [(28, 3, 0); (20, 4, a); (14, 6, t); (8, 6, s); (0, 8, c)]).
  assert (F : fit 32 L) by (subst L; fits).
  assert (E : place [(20, a); (14, t); (8, s); (0, c)] = place (strip L)) by reflexivity.
  unfold ext_eff, extension.
  rewrite (gf_in L 32 28 3 0 _ E F ltac:(inl)), (gf_in L 32 14 6 t _ E F ltac:(inl)), (gf_in L 32 8 6 s _ E F ltac:(inl)),
    (gf_in L 32 20 4 a _ E F ltac:(inl)), (gf_in L 32 0 8 c _ E F ltac:(inl)). reflexivity.
Qed.
Lemma eff1 a r : a < 2 ^ 6 -> ext_eff [(28, 1); (0, a)] r = or_addr a r.
Proof.
  intros A. set (L := [(28, 3, 1); (0, 6, a)]). assert (F : fit 32 L) by (subst L; fits).
  assert (E : place [(28, 1); (0, a)] = place (strip L)) by reflexivity.
  unfold ext_eff, extension. rewrite (gf_in L 32 28 3 1 _ E F ltac:(inl)), (gf_in L 32 0 6 a _ E F ltac:(inl)). reflexivity.
Qed.
Lemma eff2 a r : a < 2 ^ 28 -> ext_eff [(28, 2); (0, a)] r = set_attr [(User, a)] r.
Proof.
  intros A. set (L := [(28, 3, 2); (0, 28, a)]). assert (F : fit 32 L) by (subst L; fits).
  assert (E : place [(28, 2); (0, a)] = place (strip L)) by reflexivity.
  unfold ext_eff, extension. rewrite (gf_in L 32 28 3 2 _ E F ltac:(inl)), (gf_in L 32 0 28 a _ E F ltac:(inl)). reflexivity.
Qed.
Lemma eff6 e p q r : e < 2 ^ 2 -> p < 2 ^ 8 -> q < 2 ^ 8 -> ext_eff [(28, 6); (24, e); (8, p); (0, q)] r =
  set_attr [(RespErr, e); (Poison0, p); (Poison1, p)] r.
Proof.
  intros A P Q. set (L := [(28, 3, 6); (24, 2, e); (8, 8, p); (0, 8, q)]). assert (F : fit 32 L) by (subst L; fits).
  assert (E : place [(28, 6); (24, e); (8, p); (0, q)] = place (strip L)) by reflexivity.
  unfold ext_eff, extension. rewrite (gf_in L 32 28 3 6 _ E F ltac:(inl)), (gf_in L 32 24 2 e _ E F ltac:(inl)),
    (gf_in L 32 8 8 p _ E F ltac:(inl)). reflexivity.
Qed.

Definition ext_get (x : ext) (g : key -> N) (k : key) : N :=
  match k with
  | TgtID => match x_ids x with Some (t, _) => t | None => g k end
  | SrcID => match x_ids x with Some (_, s) => s | None => g k end
  | User => match x_user x with Some u => u | None => g k end
  | RespErr => match x_err x with Some (e, _, _) => e | None => g k end
  | Poison0 => match x_err x with Some (_, p, _) => p | None => g k end
  | Poison1 => match x_err x with Some (_, _, p) => p | None => g k end
  | _ => g k
  end.
Definition hi_part (a : N) : N := N.lor (N.shiftl (a / 2 ^ 60) 60) (N.shiftl (a / 2 ^ 52 mod 256) 52).
Lemma hi_small a : a < 2 ^ 52 -> hi_part a = 0.
Proof.
  intros H. unfold hi_part. rewrite (N.div_small a (2 ^ 60)), (N.div_small a (2 ^ 52)); [reflexivity|exact H|].
  eapply N.lt_trans; [exact H|]. vm_compute. reflexivity.
Qed.
Lemma ext_bounds addr x : ext_ok addr x ->
  Forall (fun f => place f < 2 ^ 31) (ext_fields addr x) /\ addr / 2 ^ 60 < 2 ^ 4 /\ addr / 2 ^ 52 mod 256 < 2 ^ 8 /\ addr mod 64 < 2 ^ 6.
Proof.
  intros (A & I & Lw & U & E).
  assert (H1 : addr / 2 ^ 60 < 2 ^ 4) by (apply N.div_lt_upper_bound; [discriminate|exact A]).
  assert (H2 : addr / 2 ^ 52 mod 256 < 2 ^ 8) by (apply N.mod_lt; discriminate).
  assert (H3 : addr mod 64 < 2 ^ 6) by (apply N.mod_lt; discriminate).
  split; [|repeat split; assumption]. unfold ext_fields. repeat rewrite Forall_app. repeat split.
  - destruct (x_ids x) as [[t s]|]; constructor; [|constructor]. destruct I as [T S].
    apply (fit_bound [(20, 4, _); (14, 6, _); (8, 6, _); (0, 8, _)] 31). fits.
  - destruct (x_low x); constructor; [|constructor]. apply (fit_bound [(28, 3, _); (0, 6, _)] 31). fits.
  - destruct (x_user x) as [u|] eqn:Eu; constructor; [|constructor]. specialize (U u eq_refl).
    apply (fit_bound [(28, 3, _); (0, 28, _)] 31). fits.
  - destruct (x_err x) as [[[e p] q]|] eqn:Ex; constructor; [|constructor].
    destruct (E e p q eq_refl) as (E1 & E2 & E3).
    apply (fit_bound [(28, 3, _); (24, 2, _); (8, 8, _); (0, 8, _)] 31). fits.
Qed.
Lemma lor_0_mid a b : N.lor (N.lor a b) 0 = N.lor a b. Proof. apply N.lor_0_r. Qed.
Lemma ext_fold addr x r : ext_ok addr x -> poison_same x ->
  let r' := fold_left (fun r f => ext_eff f r) (ext_fields addr x) r in
  r_cmd r' = r_cmd r /\ r_data r' = r_data r /\ r_be r' = r_be r /\ r_pay r' = r_pay r /\
  r_addr r' = N.lor (N.lor (r_addr r) (hi_part addr)) (addr mod 64) /\
  forall k, get (r_attr r') k = ext_get x (get (r_attr r)) k.
Proof.
  intros O P. destruct (ext_bounds addr x O) as (_ & B1 & B2 & B3).
  destruct O as (A & I & Lw & U & E). unfold ext_fields. rewrite !fold_left_app.
  destruct (x_ids x) as [[t s]|] eqn:Ei; [destruct I as [T S]|].
  all: cbn [fold_left]; try rewrite (eff0 _ t s _ r B1 T S B2).
  all: destruct (x_low x) eqn:El; cbn [fold_left]; try rewrite (eff1 _ _ B3); try rewrite (Lw eq_refl).
  all: destruct (x_user x) as [u|] eqn:Eu; cbn [fold_left]; try rewrite (eff2 u _ (U u eq_refl)).
  all: destruct (x_err x) as [[[e p] q]|] eqn:Ex; cbn [fold_left].
  all: try (destruct (E e p q eq_refl) as (E1 & E2 & E3); rewrite (eff6 e p q _ E1 E2 E3); pose proof (P e p q Ex) as <-).
  all: cbv zeta; repeat split; try reflexivity.
  all: try (intro k; unfold ext_get; rewrite Ei, Eu, Ex; destruct k; reflexivity).
  all: cbn [r_addr set_attr or_addr]; try rewrite (hi_small addr I); rewrite ?N.lor_0_r; reflexivity.
Qed.
Lemma addr_join a : a < 2 ^ 64 ->
  N.lor (N.lor (N.lor (N.lor 0 (hi_part a)) (a mod 64)) (N.shiftl (a / 2 ^ 32 mod 2 ^ 20) 32)) (N.shiftl (a / 64 mod 2 ^ 26) 6) = a.
Proof.
  intros H. unfold hi_part.
  set (p := N.shiftl (a / 2 ^ 60) 60). set (q := N.shiftl (a / 2 ^ 52 mod 256) 52).
  set (m := N.shiftl (a / 2 ^ 32 mod 2 ^ 20) 32). set (n := N.shiftl (a / 64 mod 2 ^ 26) 6). set (l := a mod 64).
  assert (R : N.lor (N.lor (N.lor (N.lor 0 (N.lor p q)) l) m) n = N.lor p (N.lor q (N.lor m (N.lor n l)))).
  { apply N.bits_inj. intro i. rewrite !N.lor_spec, N.bits_0.
    destruct (N.testbit p i), (N.testbit q i), (N.testbit m i), (N.testbit n i), (N.testbit l i); reflexivity. }
  rewrite R. subst p q m n l. clear R.
  assert (L0 : a mod 64 < 64) by (apply N.mod_lt; discriminate).
  assert (L1 : a / 64 mod 2 ^ 26 < 2 ^ 26) by (apply N.mod_lt; discriminate).
  assert (L2 : a / 2 ^ 32 mod 2 ^ 20 < 2 ^ 20) by (apply N.mod_lt; discriminate).
  assert (L3 : a / 2 ^ 52 mod 256 < 256) by (apply N.mod_lt; discriminate).
  rewrite (lor_shift _ (a mod 64) 6) by exact L0.
  rewrite (lor_shift _ _ 32) by (change (2 ^ 32) with (2 ^ 26 * 2 ^ 6); lia).
  rewrite (lor_shift _ _ 52) by (change (2 ^ 52) with (2 ^ 20 * 2 ^ 32); change (2 ^ 32) with (2 ^ 26 * 2 ^ 6); lia).
  rewrite lor_shift by (change (2 ^ 60) with (256 * 2 ^ 52); change (2 ^ 52) with (2 ^ 20 * 2 ^ 32); change (2 ^ 32) with (2 ^ 26 * 2 ^ 6); lia).
  clear. change (2 ^ 60) with 1152921504606846976. change (2 ^ 52) with 4503599627370496. change (2 ^ 32) with 4294967296.
  change (2 ^ 20) with 1048576. change (2 ^ 26) with 67108864. change (2 ^ 6) with 64. lia.
Qed.

(** ** Lengths *)
Lemma op_in_iff l op : op_in l op = true <-> In op l.
Proof.
  unfold op_in. rewrite existsb_exists. split.
  - intros (x & I & E). apply N.eqb_eq in E. subst. exact I.
  - intros I. exists op. split; [exact I|apply N.eqb_refl].
Qed.
Lemma op_in_not l op : ~ In op l -> op_in l op = false.
Proof. intros H. destruct (op_in l op) eqn:E; [|reflexivity]. apply op_in_iff in E. contradiction. Qed.
Lemma ext_words_length fs : length (ext_words fs) = length fs.
Proof. induction fs as [|f fs IH]; [reflexivity|]. cbn [ext_words length]. rewrite IH. reflexivity. Qed.
Lemma ext_fields_length addr x : (length (ext_fields addr x) <= 4)%nat.
Proof.
  unfold ext_fields. rewrite !app_length. destruct (x_ids x) as [[? ?]|], (x_low x), (x_user x), (x_err x) as [[[? ?] ?]|]; cbn; lia.
Qed.
Lemma be_bytes_length be : length (be_bytes be) = (4 * ((length be + 31) / 32))%nat.
Proof. unfold be_bytes. rewrite map_length, seq_length. reflexivity. Qed.
Lemma pad4_length l : (length (pad4 l) mod 4 = 0 /\ length (pad4 l) <= length l + 3)%nat.
Proof. unfold pad4. rewrite app_length, repeat_length. lia. Qed.
Definition be_sized (be : option (list bool)) : Prop :=
  match be with Some l => length l = 16%nat \/ length l = 32%nat \/ length l = 64%nat | None => True end.
Lemma opt_be_length be : be_sized be -> (length (opt_be be) mod 4 = 0 /\ length (opt_be be) <= 8)%nat.
Proof.
  destruct be as [l|]; [|intros _; cbn; lia]. cbn [be_sized opt_be]. rewrite be_bytes_length. intros [E|[E|E]]; rewrite E; cbn; lia.
Qed.
Lemma size_pow d s : N.of_nat d = 2 ^ s -> (16 <= d)%nat -> (d <= 64)%nat -> s = 4 \/ s = 5 \/ s = 6.
Proof.
  intros E A B. assert (s < 7). { apply (N.pow_lt_mono_r_iff 2); [reflexivity|]. rewrite <- E. change (2 ^ 7) with 128. lia. }
  assert (3 < s). { apply (N.pow_lt_mono_r_iff 2); [reflexivity|]. rewrite <- E. change (2 ^ 3) with 8. lia. } lia.
Qed.
Lemma cmsg_be c : cmsg_ok c -> be_sized (be_of c).
Proof.
  destruct c as [txn op attr addr ns qos x be d|ty txn attr op x be d| | | |]; cbn [cmsg_ok be_of be_sized]; try (intros; exact I).
  - intros (_ & _ & _ & _ & _ & _ & _ & (_ & _ & D) & _ & B). destruct be as [l|]; [|exact I]. cbn.
    destruct B as (_ & L & S & M). rewrite L. destruct (size_pow _ _ S M D) as [E|[E|E]]; rewrite E in S.
    + change (2 ^ 4) with 16 in S. lia.
    + change (2 ^ 5) with 32 in S. lia.
    + change (2 ^ 6) with 64 in S. lia.
  - intros (_ & _ & _ & _ & _ & _ & _ & B). destruct be as [l|]; [|exact I]. cbn. destruct B as (L & _). lia.
Qed.
Lemma tail_mod c : cmsg_ok c -> (length (tail c) mod 4 = 0 /\ length (tail c) <= 72)%nat.
Proof.
  intros O. pose proof (opt_be_length _ (cmsg_be c O)) as [B1 B2].
  destruct c as [txn op attr addr ns qos x be d|ty txn attr op x be d| | | |cr op p]; cbn [tail be_of] in *; try (cbn; lia).
  - cbn [cmsg_ok] in O. destruct O as (_ & _ & _ & _ & _ & _ & _ & (_ & D1 & D2) & _). rewrite app_length. lia.
  - cbn [cmsg_ok] in O. destruct O as (_ & _ & _ & _ & _ & _ & (_ & D1 & D2) & _). rewrite app_length. lia.
  - destruct O as (_ & _ & _ & _ & L). pose proof (pad4_length (skipn 2 p)) as [P1 P2]. rewrite skipn_length in P2. lia.
Qed.
Lemma more_length c : (length (more c) <= 6)%nat.
Proof.
  destruct c; cbn [more]; rewrite ?app_length, ?ext_words_length; cbn [length]; try lia.
  - pose proof (ext_fields_length addr x). lia.
  - pose proof (ext_fields_length 0 x). lia.
  - pose proof (ext_fields_length addr x). lia.
Qed.
Lemma msg_len_lt c : cmsg_ok c -> msg_len c < 2 ^ 5 /\ 0 < msg_len c.
Proof. intros O. pose proof (tail_mod c O). pose proof (more_length c). unfold msg_len. change (2 ^ 5) with 32. lia. Qed.
Lemma layout_split c rest : layout c ++ rest =
  wire (place (fst (head c) ++ [(22, msg_len c)] ++ snd (head c)) :: more c) ++ (tail c ++ rest).
Proof. unfold layout. rewrite <- app_assoc. reflexivity. Qed.
Lemma layout_length c : cmsg_ok c -> N.of_nat (length (layout c)) = 4 * msg_len c.
Proof.
  intros O. pose proof (tail_mod c O) as [T _]. unfold layout. rewrite app_length. change bytes_of_words with wire.
  rewrite wire_length. cbn [length]. unfold msg_len. lia.
Qed.
Lemma tail_size_spec c r p : cmsg_ok c -> get (r_attr r) MsgLen = msg_len c ->
  forall n, (4 * (1 + length (more c)) + length (tail c) = p + n)%nat -> tail_size r p = N.of_nat n.
Proof.
  intros O E n L. pose proof (tail_mod c O) as [T T2]. pose proof (more_length c) as M. unfold tail_size. rewrite E.
  unfold msg_len. change u32 with 4294967296.
  assert (N.of_nat (1 + length (more c) + length (tail c) / 4) * 4 = N.of_nat (p + n)) by lia. lia.
Qed.

(** ** Byte enables *)
Lemma lanes_bit be k j : (j < 8)%nat -> N.testbit (lanes be k) (N.of_nat j) = nth (8 * k + j) be false.
Proof.
  intros J. unfold lanes. cbn [seq map place].
  set (f := fun i => nth (8 * k + i) be false).
  change (nth (8 * k + j) be false) with (f j).
  change (nth (8 * k + 0) be false) with (f 0%nat). change (nth (8 * k + 1) be false) with (f 1%nat).
  change (nth (8 * k + 2) be false) with (f 2%nat). change (nth (8 * k + 3) be false) with (f 3%nat).
  change (nth (8 * k + 4) be false) with (f 4%nat). change (nth (8 * k + 5) be false) with (f 5%nat).
  change (nth (8 * k + 6) be false) with (f 6%nat). change (nth (8 * k + 7) be false) with (f 7%nat).
  clearbody f. do 8 (destruct j as [|j]; [destruct (f 0%nat), (f 1%nat), (f 2%nat), (f 3%nat), (f 4%nat), (f 5%nat), (f 6%nat), (f 7%nat); reflexivity|]).
  lia.
Qed.
Lemma nth_map_seq (f : nat -> N) n i : (i < n)%nat -> nth i (map f (seq 0 n)) 0 = f i.
Proof.
  intros H. rewrite (nth_indep _ 0 (f O)) by (rewrite map_length, seq_length; exact H). rewrite map_nth.
  rewrite seq_nth by exact H. reflexivity.
Qed.
Lemma parse_be_spec pre l d rest r n p : p = length pre -> (length pre mod 4 = 0)%nat ->
  length l = n -> n = 16%nat \/ n = 32%nat \/ n = 64%nat ->
  parse_be (pre ++ be_bytes l ++ d ++ rest) p n r =
  Ok ((length pre + length (be_bytes l))%nat, mkRmsg (r_cmd r) (r_addr r) (r_data r) (Some (enables l)) (r_attr r) (r_pay r)).
Proof.
  intros -> M L N. unfold parse_be.
  assert (Lb : length (be_bytes l) = (4 * ((n + 31) / 32))%nat) by (rewrite be_bytes_length, L; reflexivity).
  rewrite !app_length, Lb.
  replace (Nat.leb _ _) with true by (symmetry; apply Nat.leb_le; destruct N as [ -> |[ -> | -> ]]; cbn; lia).
  f_equal. f_equal; [unfold align4; destruct N as [ -> |[ -> | -> ]]; cbn -[Nat.div]; clear -M; try (change (4 * ((16 + 31) / 32))%nat with 4%nat); try (change (4 * ((32 + 31) / 32))%nat with 4%nat); try (change (4 * ((64 + 31) / 32))%nat with 8%nat); try (change ((16 - 1) / 8)%nat with 1%nat); try (change ((32 - 1) / 8)%nat with 3%nat); try (change ((64 - 1) / 8)%nat with 7%nat); lia|].
  f_equal. f_equal. unfold enables. apply map_ext_in. intros i I. apply in_seq in I.
  destruct (Nat.ltb_spec i n) as [H|H].
  - cbn [andb]. rewrite app_nth2 by lia. replace (length pre + i / 8 - length pre)%nat with (i / 8)%nat by lia.
    rewrite app_nth1.
    + unfold be_bytes. rewrite nth_map_seq.
      * rewrite lanes_bit by (apply Nat.mod_upper_bound; discriminate). replace (8 * (i / 8) + i mod 8)%nat with i by lia. reflexivity.
      * rewrite L. destruct N as [ -> |[ -> | -> ]]; cbn -[Nat.div]; [change ((16 + 31) / 32)%nat with 1%nat|change ((32 + 31) / 32)%nat with 1%nat|change ((64 + 31) / 32)%nat with 2%nat]; lia.
    + rewrite Lb. destruct N as [ -> |[ -> | -> ]]; cbn -[Nat.div]; [change ((16 + 31) / 32)%nat with 1%nat|change ((32 + 31) / 32)%nat with 1%nat|change ((64 + 31) / 32)%nat with 2%nat]; lia.
  - cbn [andb]. rewrite nth_overflow by lia. reflexivity.
Qed.
Lemma parse_data_spec pre d rest r p n : p = length pre -> n = N.of_nat (length d) -> (length d <= 64)%nat ->
  parse_data (pre ++ d ++ rest) p n r = Ok (mkRmsg C_WRITE (r_addr r) d (r_be r) (r_attr r) (r_pay r)).
Proof.
  intros -> -> L. unfold parse_data. rewrite Nat2N.id.
  replace (_ && _) with true. 2:{ symmetry. apply andb_true_iff. split; [apply N.leb_le; lia|apply Nat.leb_le; rewrite !app_length; lia]. }
  f_equal. f_equal. unfold slice. rewrite skipn_app_exact, firstn_app_exact. reflexivity.
Qed.

(** ** The receiver, message by message *)
Definition hword (c : cmsg) : N := place (fst (head c) ++ [(22, msg_len c)] ++ snd (head c)).
Definition base (c : cmsg) (tgt src credit : N) : rmsg :=
  set_attr [(TgtID, tgt); (SrcID, src); (MsgCredit, credit); (MsgType, type_of c); (MsgLen, msg_len c)]
    (mkRmsg C_IGNORE 0 (repeat 0 64) None [] (repeat 0 32)).
Lemma layout_hword c rest : layout c ++ rest = wire ([] ++ hword c :: more c) ++ (tail c ++ rest).
Proof. apply layout_split. Qed.
Lemma some_ext_lt fs : some_ext fs < 2 ^ 1. Proof. destruct fs; reflexivity. Qed.
Definition hlist (c : cmsg) : list (N * N * N) :=
  match c with
  | Request txn op _ addr _ _ x _ _ => [(31, 1, some_ext (ext_fields addr x)); (27, 4, 1); (22, 5, msg_len c); (10, 12, txn); (0, 8, op)]
  | Response ty txn attr op x _ _ =>
    [(31, 1, some_ext (ext_fields 0 x)); (27, 4, ty); (22, 5, msg_len c); (10, 12, txn); (4, 3, attr); (0, 3, op)]
  | Snoop txn cast dr op addr _ x =>
    [(31, 1, some_ext (ext_fields addr x)); (27, 4, 2); (22, 5, msg_len c); (10, 12, txn); (5, 2, cast); (4, 1, dr); (0, 4, op)]
  | Credits op d r _ _ => [(27, 4, 11); (22, 5, msg_len c); (16, 3, op); (8, 8, d); (0, 8, r)]
  | Nop => [(27, 4, 11); (22, 5, msg_len c); (16, 3, 0)]
  | Misc cr op p => [(27, 4, 3); (22, 5, msg_len c); (19, 3, cr); (16, 3, op mod 8); (8, 8, nth 0 p 0); (0, 8, nth 1 p 0)]
  end.
Lemma hlist_eq c : hword c = place (strip (hlist c)).
Proof. destruct c; try reflexivity. Qed.
Lemma bytes_nth l i : bytes_ok l -> nth i l 0 < 2 ^ 8.
Proof.
  intros B. destruct (Nat.lt_ge_cases i (length l)) as [H|H].
  - apply (proj1 (Forall_forall _ _) B). apply nth_In. exact H.
  - rewrite nth_overflow by exact H. reflexivity.
Qed.
Lemma hlist_fit c : cmsg_ok c -> fit 32 (hlist c).
Proof.
  intros O. pose proof (msg_len_lt c O) as [L _]. remember (msg_len c) as n eqn:En.
  destruct c; cbn [hlist cmsg_ok] in *; rewrite <- En; clear En.
  - destruct O as (O1 & O2 & _). pose proof (some_ext_lt (ext_fields addr x)). fits. eapply N.lt_trans; [exact O2|reflexivity].
  - destruct O as (T & O1 & O2 & O3 & _). pose proof (some_ext_lt (ext_fields 0 x)). fits. destruct T; subst; reflexivity.
  - destruct O as (O1 & O2 & O3 & O4 & _). pose proof (some_ext_lt (ext_fields addr x)). fits.
  - destruct O as (T & O1 & O2 & O3 & O4). fits. destruct T; subst; reflexivity.
  - fits.
  - destruct O as (O1 & O2 & O3 & O4 & _). fits; try (apply bytes_nth; exact O4). apply N.mod_lt. discriminate.
Qed.
Lemma hword_lt c : cmsg_ok c -> hword c < u32.
Proof. intros O. rewrite hlist_eq. apply (fit_bound _ 32 (hlist_fit c O)). Qed.
Lemma extract_start c rest tgt src credit : cmsg_ok c ->
  Nat.ltb (length (layout c ++ rest)) 4 = false /\
  be_dec (slice 0 4 (layout c ++ rest)) = hword c /\
  next (layout c ++ rest) 0 = Ok (hword c, 4%nat) /\
  new_msg (layout c ++ rest) tgt src credit = Ok (base c tgt src credit) /\
  get_field 27 4 (hword c) = type_of c.
Proof.
  intros O. pose proof (next_word [] (hword c) (more c) (tail c ++ rest) 0 eq_refl (hword_lt c O)) as NW.
  rewrite <- layout_hword in NW. cbn [length] in NW. change (4 * 1)%nat with 4%nat in NW.
  assert (T : get_field 27 4 (hword c) = type_of c).
  { apply (gf_in (hlist c) 32 27 4 (type_of c) _ (hlist_eq c) (hlist_fit c O)). destruct c; inl. }
  assert (ML : get_field 22 5 (hword c) = msg_len c).
  { apply (gf_in (hlist c) 32 22 5 (msg_len c) _ (hlist_eq c) (hlist_fit c O)). destruct c; inl. }
  split; [|split; [|split; [exact NW|split; [|exact T]]]].
  - apply Nat.ltb_ge. rewrite layout_hword, app_length, wire_length. cbn [length app]. lia.
  - unfold next in NW. destruct (Nat.leb (0 + 4) (length (layout c ++ rest))); [|discriminate NW]. now inversion NW.
  - unfold new_msg. rewrite NW. unfold rmap. cbn [rbind fst]. rewrite T, ML. reflexivity.
Qed.

Lemma ext_get_get x l k : ext_get x (get l) k = ext_get x (fun k => get l k) k. Proof. reflexivity. Qed.
Lemma addr_parts a : a / 2 ^ 32 mod 2 ^ 20 < 2 ^ 20 /\ a / 64 mod 2 ^ 26 < 2 ^ 26.
Proof. split; apply N.mod_lt; discriminate. Qed.

Lemma rx_req_spec txn op attr addr ns qos x be d rest tgt src credit :
  let c := Request txn op attr addr ns qos x be d in cmsg_ok c ->
  exists r, rx_req (layout c ++ rest) (base c tgt src credit) = Ok r /\ received c tgt src credit r.
Proof.
  intros c O. destruct (extract_start c rest tgt src credit O) as (_ & _ & NW & _ & _).
  unfold rx_req. rewrite NW. cbn [rbind].
  pose proof (hlist_fit c O) as F. pose proof (hlist_eq c) as E.
  rewrite (gf_in _ 32 10 12 txn _ E F ltac:(inl)), (gf_in _ 32 0 8 op _ E F ltac:(inl)).
  pose proof (gf_in _ 32 31 1 (some_ext (ext_fields addr x)) _ E F ltac:(inl)) as X31.
  pose proof (tail_size_spec c) as TS. specialize (TS) with (1 := O).
  pose proof (cmsg_be c O) as BS. pose proof O as O'.
  cbn [cmsg_ok] in O'. destruct O' as (O1 & O2 & O3 & O4 & O5 & O6 & O7 & (D1 & D2 & D3) & O8 & O9).
  replace (op =? Op_ReqChain) with false by (symmetry; apply N.eqb_neq; unfold Op_ReqChain; lia).
  destruct (ext_bounds addr x O6) as (XB & _).
  set (w1 := place [(24, attr); (0, addr / 2 ^ 32 mod 2 ^ 20)]).
  set (w2 := place [(6, addr / 64 mod 2 ^ 26); (4, ns); (0, qos)]).
  destruct (addr_parts addr) as [A1 A2].
  assert (F1 : fit 32 [(24, 8, attr); (0, 20, addr / 2 ^ 32 mod 2 ^ 20)]) by fits.
  assert (F2 : fit 32 [(6, 26, addr / 64 mod 2 ^ 26); (4, 1, ns); (0, 4, qos)]) by fits.
  assert (E1 : w1 = place (strip [(24, 8, attr); (0, 20, addr / 2 ^ 32 mod 2 ^ 20)])) by reflexivity.
  assert (E2 : w2 = place (strip [(6, 26, addr / 64 mod 2 ^ 26); (4, 1, ns); (0, 4, qos)])) by reflexivity.
  assert (W1 : w1 < u32) by (apply (fit_bound _ 32 F1)).
  assert (W2 : w2 < u32) by (apply (fit_bound _ 32 F2)).
  set (r0 := set_attr [(TxnID, txn); (ReqOp, op)] (base c tgt src credit)).
  set (b := layout c ++ rest).
  assert (B : b = wire ([hword c] ++ ext_words (ext_fields addr x) ++ [w1; w2]) ++ (opt_be be ++ d) ++ rest).
  { subst b. rewrite layout_hword. reflexivity. }
  destruct (exts_run (ext_fields addr x) [hword c] (hword c) r0 (S (length b)) [w1; w2] ((opt_be be ++ d) ++ rest) 4%nat) as (w' & R).
  { rewrite B, app_length, wire_length, !app_length, ext_words_length. lia. }
  { reflexivity. }
  { exact X31. }
  { exact XB. }
  rewrite <- B in R. unfold extract_exts. rewrite R. cbn [rbind]. clear R w'.
  set (fs := ext_fields addr x) in *.
  destruct (ext_fold addr x r0 O6 O7) as (X1 & X2 & X3 & X4 & X5 & X6). fold fs in X1, X2, X3, X4, X5, X6.
  set (r1 := fold_left (fun r f => ext_eff f r) fs r0) in *.
  pose proof (next_word ([hword c] ++ ext_words fs) w1 [w2] ((opt_be be ++ d) ++ rest) (4 * (length [hword c] + length fs)) ltac:(rewrite app_length, ext_words_length; reflexivity) W1) as N1.
  pose proof (next_word ([hword c] ++ ext_words fs ++ [w1]) w2 [] ((opt_be be ++ d) ++ rest) (4 * S (length ([hword c] ++ ext_words fs))) ltac:(rewrite !app_length; cbn [length]; lia) W2) as N2.
  repeat rewrite <- app_assoc in N1. repeat rewrite <- app_assoc in N2. repeat rewrite <- app_assoc in B.
  cbn [app] in N1, N2, B. repeat rewrite <- app_assoc in N2. rewrite <- B in N1, N2.
  change (length [hword c]) with 1%nat in N1 |- *. rewrite N1. unfold rmap. cbn [rbind fst snd]. rewrite N2. cbn [rbind fst snd].
  rewrite (gf_in _ 32 24 8 attr w1 E1 F1 ltac:(inl)), (gf_in _ 32 0 20 _ w1 E1 F1 ltac:(inl)).
  rewrite (gf_in _ 32 6 26 _ w2 E2 F2 ltac:(inl)), (gf_in _ 32 4 1 _ w2 E2 F2 ltac:(inl)), (gf_in _ 32 0 4 _ w2 E2 F2 ltac:(inl)).
  clear N1 N2.
  set (r2 := or_addr _ (set_attr [(NonSecure, ns); (QoS, qos)] (or_addr _ (set_attr [(ReqAttr, attr)] r1)))).
  set (p := (4 * S (length (hword c :: ext_words fs ++ [w1])))%nat).
  assert (P : p = length (wire (hword c :: ext_words fs ++ [w1; w2]))).
  { rewrite wire_length. subst p. cbn [length]. rewrite !app_length. cbn [length]. lia. }
  assert (PM : (p mod 4 = 0)%nat) by (rewrite P, wire_length; lia).
  assert (PL : (4 * (1 + length (more c)) = p)%nat).
  { rewrite P, wire_length. cbn [length more c]. reflexivity. }
  assert (G2 : forall k, get (r_attr r2) k = attr_of c tgt src credit k).
  { intro k. specialize (X6 k). subst r2. destruct k; cbn -[r1]; try exact eq_refl; rewrite X6; unfold ext_get; cbn -[msg_len];
      try reflexivity; try (destruct (x_ids x) as [[? ?]|]; reflexivity); try (destruct (x_err x) as [[[? ?] ?]|]; reflexivity). }
  assert (A2' : r_addr r2 = addr).
  { subst r2. cbn [r_addr or_addr set_attr]. rewrite X5. cbn [r_addr r0 base set_attr]. apply addr_join. exact (proj1 O6). }
  clearbody r1 p. cbn [orb andb negb]. rewrite Bool.orb_false_r.
  assert (GL : get (r_attr r2) MsgLen = msg_len c) by exact (G2 MsgLen).
  assert (DO : d <> [] -> is_write_op op || is_atomic_op op || false = true).
  { intro Hd. rewrite Bool.orb_false_r. destruct (O8 Hd) as [W|W].
    - apply orb_true_iff. left. apply op_in_iff. exact W.
    - apply orb_true_iff. right. unfold is_atomic_op. apply andb_true_iff. split; apply N.leb_le; lia. }
  assert (R2 : r_cmd r2 = C_IGNORE /\ r_data r2 = repeat 0 64 /\ r_be r2 = None /\ r_pay r2 = repeat 0 32).
  { subst r2. cbn [r_cmd r_data r_be r_pay or_addr set_attr]. rewrite X1, X2, X3, X4. repeat split. }
  destruct R2 as (C1 & C2 & C3 & C4). clearbody r2.
  destruct be as [l|]; cbn [opt_be app be_sized be_of c] in *.
  - destruct O9 as (I9 & L9 & S9 & M9). replace (has_bes op) with true by (symmetry; apply op_in_iff; exact I9).
    pose proof (size_pow _ _ S9 M9 D3) as SP.
    assert (SZ : size_of (get (r_attr r2) ReqAttr) = Ok (length l)).
    { rewrite (G2 ReqAttr). cbn [attr_of c]. unfold size_of. rewrite get_field_div. change (2 ^ 4) with 16. change (2 ^ 3) with 8.
      destruct SP as [SP|[SP|SP]]; rewrite SP in S9 |- *; cbn [N.eqb Pos.eqb]; f_equal; rewrite L9;
        [change (2 ^ 4) with 16 in S9|change (2 ^ 5) with 32 in S9|change (2 ^ 6) with 64 in S9]; lia. }
    cbn [fst snd]. rewrite SZ. cbn [rbind]. rewrite B.
    rewrite (parse_be_spec _ l d rest r2 (length l) p P ltac:(rewrite <- P; exact PM) eq_refl BS).
    cbn [rbind fst snd]. set (r3 := mkRmsg _ _ _ _ _ _).
    assert (G3 : get (r_attr r3) MsgLen = msg_len c) by exact GL.
    rewrite (TS r3 _ G3 (length d)) by (rewrite PL; cbn [tail c opt_be]; rewrite app_length, <- P; lia).
    assert (Hd : d <> []) by (destruct d; [cbn in M9; lia|discriminate]).
    replace (0 <? N.of_nat (length d)) with true by (symmetry; apply N.ltb_lt; lia).
    rewrite (DO Hd). rewrite app_assoc.
    rewrite (parse_data_spec _ d rest r3 _ (N.of_nat (length d))) by (try lia; rewrite app_length; reflexivity).
    eexists. split; [reflexivity|]. unfold received. cbn [r_cmd r_addr r_data r_be r_attr r_pay r3 data_of be_of addr_of pay_of c option_map app length].
    repeat split; try assumption; try (destruct d; [contradiction|reflexivity]).
  - rewrite (op_in_not _ _ O9 : has_bes op = false). cbn [rbind fst snd].
    rewrite (TS r2 _ GL (length d)) by (rewrite PL; cbn [tail c opt_be app]; reflexivity).
    destruct d as [|d0 d'].
    + cbn [length N.of_nat N.ltb N.compare]. exists r2. split; [reflexivity|].
      unfold received. cbn [data_of be_of addr_of pay_of c option_map app length]. repeat split; assumption.
    + replace (0 <? N.of_nat (length (d0 :: d'))) with true by (symmetry; apply N.ltb_lt; cbn [length]; lia).
      rewrite (DO ltac:(discriminate)). rewrite B.
      rewrite (parse_data_spec _ (d0 :: d') rest r2 p _ P eq_refl D3).
      eexists. split; [reflexivity|]. unfold received. cbn [r_cmd r_addr r_data r_be r_attr r_pay data_of be_of addr_of pay_of c option_map app].
      repeat split; assumption.
Qed.
