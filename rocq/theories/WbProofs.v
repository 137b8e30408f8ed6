(** Proofs about the Wishbone bridges. *)
From Verif Require Import Base BaseFacts LeFacts TlmModel TlmSpec TlmFacts WbModel.
Open Scope N_scope.

(** ** The wires carry every beat exactly once *)
Section Link.
Context (bw : N) {T : Type} (t : target T) (lat : nat -> nat).
Notation E := (link_edges bw t lat).

Lemma edges_add n m s : E (n + m)%nat s = E m (E n s).
Proof. revert s. induction n; intro s; cbn; auto. Qed.

Lemma busy k : forall q got st c b,
  E (S (S k)) (mkLink (b :: q) got false (S_Busy k) st c) =
  mkLink q (got ++ [sl_dat_o (snd st)]) false S_Wait st c.
Proof.
  induction k as [|k IH]; intros; [reflexivity|].
  change (E (S (S (S k))) ?s) with (E (S (S k)) (link_edge bw t lat s)). cbn [link_edge k_todo k_ack k_spc k_got k_st k_calls].
  apply IH.
Qed.
Lemma one_beat b q got st c : exists n,
  E n (mkLink (b :: q) got false S_Wait st c) =
  mkLink q (got ++ [sl_dat_o (snd (slave_beat bw t st b))]) false S_Wait (slave_beat bw t st b) (S c).
Proof.
  destruct (lat c) as [|k] eqn:L.
  - exists 2%nat. cbn [link_edges link_edge k_todo k_ack k_spc k_got k_st k_calls]. rewrite L. reflexivity.
  - exists (S (S (S k))).
    change (E (S (S (S k))) ?s) with (E (S (S k)) (link_edge bw t lat s)).
    cbn [link_edge k_todo k_ack k_spc k_got k_st k_calls]. rewrite L. apply busy.
Qed.
Lemma all_beats l : forall got st c, exists n,
  E n (mkLink l got false S_Wait st c) =
  mkLink [] (got ++ snd (wb_serve bw t st l)) false S_Wait (fst (wb_serve bw t st l)) (c + length l)%nat.
Proof.
  induction l as [|b l IH]; intros got st c.
  - exists 0%nat. cbn. now rewrite app_nil_r, Nat.add_0_r.
  - destruct (one_beat b l got st c) as [n1 H1].
    destruct (IH (got ++ [sl_dat_o (snd (slave_beat bw t st b))]) (slave_beat bw t st b) (S c)) as [n2 H2].
    exists (n1 + n2)%nat. rewrite edges_add, H1, H2. cbn [wb_serve].
    destruct (wb_serve bw t (slave_beat bw t st b) l) as [st' ds]. cbn [fst snd length].
    rewrite <- app_assoc. cbn. f_equal. lia.
Qed.
Lemma idle_stays n : forall got st c, E n (mkLink [] got false S_Wait st c) = mkLink [] got false S_Wait st c.
Proof. induction n; intros; cbn; auto. Qed.
End Link.

(** ** Aligned transfers of whole words *)
Section Aligned.
Context (bw aw : N).
Hypothesis bw_ok : bw = 4 \/ bw = 8.
Hypothesis aw_ok : aw <= 64.

Definition ram : target mem := atomic_memory (fun _ => false).

Definition word (g : gp) : Prop :=
  g_be g = None /\ g_addr g mod bw = 0 /\ g_len g mod bw = 0 /\ 0 < g_len g /\
  g_len g <= g_sw g /\ g_addr g + g_len g <= 2 ^ aw /\ bytes_ok (g_data g).

Lemma pow64 : 2 ^ aw <= u64.
Proof. change u64 with (2 ^ 64). apply N.pow_le_mono_r; lia. Qed.

Lemma tlen_word g : word g -> wb_tlen bw g = bw.
Proof.
  intros (_ & _ & M & P & _). unfold wb_tlen. apply N.min_l.
  destruct (N.lt_ge_cases (g_len g) bw) as [H|H]; [|lia]. rewrite N.mod_small in M by exact H. lia.
Qed.

(** byte [i] of the transaction *)
Lemma word_access g i : word g -> (i < length (g_data g))%nat ->
  access_at g i = mkAcc (g_addr g + N.of_nat i) true (nth i (g_data g) 0).
Proof.
  intros (B & _ & _ & _ & S & A & _) Hi. pose proof pow64. unfold g_len in *.
  unfold access_at, byte_addr, stream_off. rewrite B. destruct (N.eqb_spec (g_sw g) 0); [lia|].
  rewrite (N.mod_small (N.of_nat i)) by lia. rewrite N.mod_small by lia. reflexivity.
Qed.

(** the accesses of one beat of the slave *)
Lemma beat_accesses c a d be :
  be = None \/ be = Some [] -> N.of_nat (length d) = bw -> a + bw <= u64 ->
  accesses (mkGp c a d be bw St_INCOMPLETE) =
  map (fun i => mkAcc (a + N.of_nat i) true (nth i d 0)) (seq 0 (length d)).
Proof.
  intros Hb L A. unfold accesses. cbn [g_data]. apply map_ext_in. intros i Hi. apply in_seq in Hi.
  unfold access_at, byte_addr, stream_off. cbn [g_addr g_sw g_be g_data].
  destruct (N.eqb_spec bw 0); [lia|]. rewrite (N.mod_small (N.of_nat i)) by lia.
  rewrite N.mod_small by lia. destruct Hb as [-> | ->]; reflexivity.
Qed.

Definition adr_at (g : gp) (p : N) : N := g_addr g + p.
Lemma adr_eq g p : word g -> p + bw <= g_len g -> (g_addr g + p) mod u64 mod 2 ^ aw = g_addr g + p.
Proof.
  intros (_ & _ & _ & _ & _ & A & _) H. pose proof pow64. rewrite (N.mod_small (g_addr g + p) u64) by lia. apply N.mod_small. lia.
Qed.
Lemma shift_eq g p : word g -> p + bw <= g_len g -> p mod bw = 0 -> (g_addr g + p) mod u64 mod bw = 0.
Proof.
  intros W H P. pose proof pow64. destruct W as (_ & A0 & _ & _ & _ & A & _). rewrite (N.mod_small (g_addr g + p)) by lia.
  rewrite N.add_mod by lia. rewrite A0, P, N.add_0_l. apply N.mod_0_l. lia.
Qed.

(** [n] words left from position [p] on *)
Definition beat_of (g : gp) (i : N) : wb_beat :=
  let sel := 2 ^ bw - 1 in
  if is_read g then mkWb (g_addr g + i) false sel 0
  else mkWb (g_addr g + i) true sel (le_dec (slice (N.to_nat i) (N.to_nat bw) (g_data g))).
Fixpoint words (p : N) (n : nat) : list N := match n with O => [] | S n' => p :: words (p + bw) n' end.

Lemma slice_bytes g p : word g -> bytes_ok (slice (N.to_nat p) (N.to_nat bw) (g_data g)).
Proof.
  intros (_ & _ & _ & _ & _ & _ & B). unfold slice, bytes_ok in *.
  rewrite Forall_forall in *. intros x Hx. apply B.
  rewrite <- (firstn_skipn (N.to_nat p) (g_data g)). apply in_or_app. right.
  rewrite <- (firstn_skipn (N.to_nat bw) (skipn (N.to_nat p) (g_data g))). apply in_or_app. now left.
Qed.
Lemma slice_len g p : p + bw <= g_len g -> length (slice (N.to_nat p) (N.to_nat bw) (g_data g)) = N.to_nat bw.
Proof. intro H. unfold g_len in H. rewrite slice_length by lia. lia. Qed.

Lemma beat_at_word g p : word g -> p + bw <= g_len g -> p mod bw = 0 ->
  wb_beat_at bw aw g p = Ok (beat_of g p).
Proof.
  intros W H P. unfold wb_beat_at, beat_of. rewrite (tlen_word g W). rewrite (adr_eq g p W H), (shift_eq g p W H P).
  destruct (is_read g); [reflexivity|]. destruct (N.leb_spec (p + bw) (g_len g)); [|lia].
  rewrite N.mul_0_l, N.shiftl_0_r.
  pose proof (le_dec_bound _ (slice_bytes g p W)) as B. rewrite (slice_len g p H), N2Nat.id in B.
  rewrite (N.mod_small _ u64), N.mod_small; [reflexivity|exact B|].
  eapply N.lt_le_trans; [exact B|]. destruct bw_ok as [-> | ->]; vm_compute; discriminate.
Qed.
Lemma beats_words g : word g -> forall n p fuel, (n <= fuel)%nat -> (0 < n)%nat -> p mod bw = 0 ->
  p + N.of_nat n * bw = g_len g -> wb_beats bw aw fuel g p = Ok (map (beat_of g) (words p n)).
Proof.
  intro W. induction n as [|n IH]; intros p fuel F N0 P L; [lia|]. destruct fuel as [|fuel]; [lia|].
  cbn [wb_beats words map]. rewrite beat_at_word by (auto; lia). cbn [rbind]. rewrite (tlen_word g W).
  destruct n as [|n].
  - destruct (N.ltb_spec (p + bw) (g_len g)); [lia|]. reflexivity.
  - destruct (N.ltb_spec (p + bw) (g_len g)); [|lia].
    rewrite (IH (p + bw) fuel); [reflexivity|lia|lia| |lia].
    rewrite N.add_mod, P, N.mod_same by lia. apply N.mod_0_l. lia.
Qed.

(** writes *)
Lemma write_beat g p m sl : word g -> is_read g = false -> p + bw <= g_len g ->
  fst (slave_beat bw ram (m, sl) (beat_of g p)) =
  fold_left put (map (access_at g) (seq (N.to_nat p) (N.to_nat bw))) m.
Proof.
  intros W R H. unfold beat_of, slave_beat, slave_gp, ram, atomic_memory. rewrite R. cbn [w_we fst snd].
  replace (existsb _ _) with false by (symmetry; clear; induction (accesses _); auto).
  cbn [g_cmd w_adr w_dat fst]. f_equal.
  rewrite le_enc_dec; [|now apply slice_len|now apply slice_bytes].
  pose proof W as (_ & _ & _ & _ & _ & A & _). pose proof pow64.
  rewrite beat_accesses; [|now right|rewrite (slice_len g p H); lia|lia].
  rewrite (slice_len g p H). apply map_seq_shift. intros i Hi. unfold g_len in *.
  rewrite word_access by (auto; lia). rewrite nth_slice by lia. f_equal. lia.
Qed.
Lemma write_words g : word g -> is_read g = false -> forall n p m sl,
  p + N.of_nat n * bw = g_len g ->
  fst (fst (wb_serve bw ram (m, sl) (map (beat_of g) (words p n)))) =
  fold_left put (map (access_at g) (seq (N.to_nat p) (length (g_data g) - N.to_nat p))) m.
Proof.
  intros W R. induction n as [|n IH]; intros p m sl L; unfold g_len in L.
  - replace (length (g_data g) - N.to_nat p)%nat with 0%nat by lia. reflexivity.
  - cbn [words map wb_serve]. pose proof (write_beat g p m sl W R) as B. unfold g_len in B. specialize (B ltac:(lia)).
    destruct (slave_beat bw ram (m, sl) (beat_of g p)) as [m1 sl1]. cbn [fst] in B. subst m1.
    specialize (IH (p + bw) (fold_left put (map (access_at g) (seq (N.to_nat p) (N.to_nat bw))) m) sl1 ltac:(unfold g_len; lia)).
    destruct (wb_serve _ _ _ _) as [st ds]. cbn [fst] in *. rewrite IH, <- fold_left_app, <- map_app. f_equal. f_equal.
    replace (N.to_nat (p + bw)) with (N.to_nat p + N.to_nat bw)%nat by lia.
    rewrite <- seq_app. f_equal. lia.
Qed.

(** reads *)
Definition word_at (m : mem) (a : N) : list N := map (fun i => m (a + N.of_nat i)) (seq 0 (N.to_nat bw)).
Lemma read_beat g p m sl : word g -> is_read g = true -> p + bw <= g_len g -> N.of_nat (length (sl_data sl)) = bw ->
  slave_beat bw ram (m, sl) (beat_of g p) = (m, mkSl (word_at m (g_addr g + p)) (le_dec (word_at m (g_addr g + p)))).
Proof.
  intros W R H L. unfold beat_of, slave_beat, slave_gp, ram, atomic_memory. rewrite R. cbn [w_we fst snd].
  replace (existsb _ _) with false by (symmetry; clear; induction (accesses _); auto).
  cbn [g_cmd w_adr w_dat fst].
  pose proof W as (_ & _ & _ & _ & _ & A & _). pose proof pow64.
  rewrite beat_accesses; [|now left|exact L|lia]. rewrite map_map. cbn [get a_en a_addr].
  unfold word_at. replace (N.to_nat bw) with (length (sl_data sl)) by lia. reflexivity.
Qed.
Lemma read_words g : word g -> is_read g = true -> forall n p m sl,
  p + N.of_nat n * bw = g_len g -> N.of_nat (length (sl_data sl)) = bw ->
  exists sl', wb_serve bw ram (m, sl) (map (beat_of g) (words p n)) =
  (m, sl', map (fun i => le_dec (word_at m (g_addr g + i))) (words p n)) /\ N.of_nat (length (sl_data sl')) = bw.
Proof.
  intros W R. induction n as [|n IH]; intros p m sl L D.
  - exists sl. auto.
  - cbn [words map wb_serve]. rewrite read_beat by (auto; lia).
    destruct (IH (p + bw) m (mkSl (word_at m (g_addr g + p)) (le_dec (word_at m (g_addr g + p))))) as (sl' & E & D'); [lia| |].
    { cbn. unfold word_at. rewrite map_length, seq_length. lia. }
    rewrite E. exists sl'. auto.
Qed.
Lemma store_words g m : word g -> (forall x, m x < 256) -> forall n p pre rest,
  p + N.of_nat n * bw = g_len g -> length pre = N.to_nat p -> N.of_nat (length rest) = N.of_nat n * bw ->
  wb_store bw g p (map (fun i => le_dec (word_at m (g_addr g + i))) (words p n)) (pre ++ rest) =
  Ok (pre ++ map (fun i => m (g_addr g + N.of_nat i)) (seq (N.to_nat p) (n * N.to_nat bw))).
Proof.
  intros W B. induction n as [|n IH]; intros p pre rest L Lp Lr.
  - destruct rest; [|cbn in Lr; lia]. reflexivity.
  - cbn [words map wb_store]. rewrite (tlen_word g W). destruct (N.leb_spec (p + bw) (g_len g)); [|lia].
    pose proof W as (_ & A0 & _). rewrite A0, N.mul_0_l, N.shiftr_0_r.
    assert (LW : length (word_at m (g_addr g + p)) = N.to_nat bw) by (unfold word_at; now rewrite map_length, seq_length).
    rewrite le_enc_dec; [|exact LW|].
    2: { unfold word_at, bytes_ok. apply Forall_forall. intros x Hx. apply in_map_iff in Hx as (i & <- & _). apply B. }
    unfold overlay. rewrite LW, <- Lp, firstn_app_exact, <- skipn_add, skipn_app_exact, app_assoc.
    rewrite IH; [|lia|rewrite app_length; lia|rewrite skipn_length; lia].
    rewrite <- app_assoc. do 2 f_equal.
    replace (N.to_nat (p + bw)) with (N.to_nat p + N.to_nat bw)%nat by lia.
    cbn [Nat.mul]. rewrite seq_app, map_app. rewrite Lp. f_equal. unfold word_at. apply map_seq_shift. intros i Hi. f_equal. lia.
Qed.

Lemma transport_word g (m : mem) sl : word g -> (forall x, m x < 256) -> N.of_nat (length (sl_data sl)) = bw ->
  g_cmd g <> C_IGNORE ->
  exists sl', wb_transport bw aw ram (m, sl) g =
    Ok (fst (ram m g), sl', snd (ram m g)).
Proof.
  intros W B D NI. unfold wb_transport.
  set (n := N.to_nat (g_len g / bw)).
  assert (L : N.of_nat n * bw = g_len g).
  { pose proof W as (_ & _ & M & _). subst n. rewrite N2Nat.id. pose proof (N.div_mod (g_len g) bw ltac:(lia)). lia. }
  assert (N1 : (0 < n)%nat) by (pose proof W as (_ & _ & _ & P & _); lia).
  assert (N2 : (n <= length (g_data g))%nat) by (unfold g_len in L; nia).
  rewrite (beats_words g W n 0) by (auto; try lia; apply N.mod_0_l; lia). cbn [rbind].
  assert (AC : accesses g = map (access_at g) (seq 0 (length (g_data g)))) by reflexivity.
  assert (X : existsb (fun a : access => (fun _ : N => false) (a_addr a)) (accesses g) = false) by (clear; induction (accesses g); auto).
  assert (RM : ram m g = match g_cmd g with
         | C_READ => (m, (map (get m) (accesses g), St_OK))
         | C_WRITE => (fold_left put (accesses g) m, (g_data g, St_OK))
         | C_IGNORE => (m, (g_data g, St_OK)) end) by (unfold ram, atomic_memory; now rewrite X).
  rewrite RM. clear RM X. destruct (g_cmd g) eqn:C; [| |easy].
  - assert (R : is_read g = true) by (unfold is_read; now rewrite C).
    destruct (read_words g W R n 0 m sl) as (sl' & E & _); [lia|exact D|]. rewrite E, R.
    pose proof (store_words g m W B n 0 [] (g_data g)) as S. cbn [app] in S.
    rewrite S; [|lia|reflexivity|unfold g_len in L; lia]. cbn [rbind]. exists sl'. cbn [fst snd]. do 4 f_equal.
    rewrite AC, map_map. replace (n * N.to_nat bw)%nat with (length (g_data g)) by (unfold g_len in L; lia).
    apply map_ext_in. intros i Hi. apply in_seq in Hi. rewrite word_access by (auto; lia). reflexivity.
  - assert (R : is_read g = false) by (unfold is_read; now rewrite C).
    pose proof (write_words g W R n 0 m sl ltac:(lia)) as E.
    destruct (wb_serve bw ram (m, sl) _) as [[m' sl'] ds]. cbn [fst] in E. rewrite R. cbn [rbind]. exists sl'. cbn [fst snd].
    rewrite E, AC. change (N.to_nat 0) with 0%nat. rewrite Nat.sub_0_r. reflexivity.
Qed.
End Aligned.
