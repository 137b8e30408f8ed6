(** Facts about single definitions of ChiModel.v. *)
From Coq Require Import ZifyBool ZifyNat.
From Verif Require Import Base TlmModel TlmSpec AceSpec CachelineModel ChiModel.
From Verif Require AceFacts.
Open Scope N_scope.

Section Facts.
Context (f : cfg).

(** ** Addresses *)
Lemma align_off a : align a + line_off a = a.
Proof. unfold align, line_off. pose proof (N.div_mod a 64). lia. Qed.
Lemma off_lt a : line_off a < 64.
Proof. unfold line_off. apply N.mod_lt. lia. Qed.
Lemma align_mul k : align (64 * k) = 64 * k.
Proof. unfold align. rewrite (N.mul_comm 64 k), N.div_mul by lia. apply N.mul_comm. Qed.
Lemma align_align a : align (align a) = align a.
Proof. unfold align at 2 3. apply align_mul. Qed.
Lemma line_of t x : align t = t -> t <= x -> x < t + 64 -> align x = t.
Proof.
  intros Ht H1 H2. pose proof (align_off x). pose proof (off_lt x).
  unfold align in *. rewrite <- Ht in *.
  assert (x / 64 = t / 64) by lia. lia.
Qed.
Lemma lines_apart t u k m : align t = t -> align u = u -> k < 64 -> m < 64 -> t + k = u + m -> t = u /\ k = m.
Proof.
  intros Ht Hu Hk Hm E.
  assert (align (t + k) = t) by (apply line_of; auto; lia).
  assert (align (u + m) = u) by (apply line_of; auto; lia).
  assert (t = u) by congruence. lia.
Qed.
Lemma seg_len_line r : line_off (cur_addr r) + seg_len r <= 64.
Proof. unfold seg_len. pose proof (off_lt (cur_addr r)). lia. Qed.
Lemma seg_len_rest r : seg_len r <= rest r.
Proof. unfold seg_len. lia. Qed.
Lemma seg_len_pos r : r_pos r < o_len (r_op r) -> 0 < seg_len r.
Proof. unfold seg_len, rest. pose proof (off_lt (cur_addr r)). lia. Qed.
Lemma seg_64 r : seg_len r = 64 -> line_off (cur_addr r) = 0 /\ 64 <= rest r.
Proof. pose proof (seg_len_line r). pose proof (seg_len_rest r). lia. Qed.

(** ** Lines *)
Definition full (l : line) : Prop := forall k, k < 64 -> l_be l k = true.
Definition empty (l : line) : Prop := forall k, k < 64 -> l_be l k = false.
Definition same (d : N -> N) (w : mem) (t : N) : Prop := forall k, k < 64 -> d k = w (t + k).

Lemma in_offs k : In k offs <-> k < 64.
Proof.
  unfold offs. rewrite in_map_iff. split.
  - intros (x & <- & H). apply in_seq in H. lia.
  - intro H. exists (N.to_nat k). split; [lia|]. apply in_seq. lia.
Qed.
Lemma grade_full l : grade_of l = Full <-> full l.
Proof.
  unfold grade_of, full. destruct (forallb (l_be l) offs) eqn:E.
  - split; [|reflexivity]. intros _ k Hk. rewrite forallb_forall in E. apply E, in_offs, Hk.
  - split; [destruct (existsb _ _); discriminate|]. intro H. exfalso.
    rewrite (proj2 (forallb_forall _ _)) in E; [discriminate|]. intros x Hx. apply H, in_offs, Hx.
Qed.
Lemma grade_empty l : empty l -> grade_of l = Empty.
Proof.
  intro H. unfold grade_of. destruct (forallb (l_be l) offs) eqn:E.
  - rewrite forallb_forall in E. exfalso.
    specialize (E 0 ltac:(apply in_offs; lia)). rewrite H in E by lia. discriminate.
  - destruct (existsb _ _) eqn:X; [|reflexivity]. exfalso. apply existsb_exists in X as (k & Hk & Y).
    rewrite H in Y by now apply in_offs. discriminate.
Qed.
Lemma is_full_spec l : is_full l = true <-> full l.
Proof. rewrite <- grade_full. unfold is_full. destruct (grade_of l); split; congruence. Qed.
Lemma full_not_empty l : full l -> empty l -> False.
Proof. intros H1 H2. specialize (H1 0 ltac:(lia)). rewrite H2 in H1 by lia. discriminate. Qed.

Lemma in_cache_spec l a : in_cache l a = true <-> l_valid l = true /\ l_tag l = align a.
Proof. unfold in_cache. rewrite andb_true_iff, N.eqb_eq. tauto. Qed.

(** ** Stores *)
Lemma hits_all r : seg_len r = 64 ->
  (forall j, j < 64 -> be_at (o_be (r_op r)) (r_pos r + j) = true) -> forall k, k < 64 -> hits r k = true.
Proof.
  intros H1 H2 k Hk. destruct (seg_64 r H1) as [H0 _]. unfold hits. rewrite H0, H1.
  replace (0 <=? k) with true by lia. replace (k <? 0 + 64) with true by lia. cbn.
  rewrite N.sub_0_r. now apply H2.
Qed.
Lemma piece_line r (m : mem) k : k < 64 ->
  fold_left put (write_piece r) m (align (cur_addr r) + k) =
  if hits r k then byte_for r k else m (align (cur_addr r) + k).
Proof.
  intro Hk. unfold write_piece, hits, byte_for. rewrite AceFacts.put_bytes.
  pose proof (align_off (cur_addr r)) as E. pose proof (seg_len_line r) as Hs.
  set (lo := line_off (cur_addr r)) in *. set (t := align (cur_addr r)) in *. clearbody lo t. unfold cur_addr in E.
  replace ((o_addr (r_op r) + r_pos r <=? t + k) && (t + k <? o_addr (r_op r) + r_pos r + seg_len r))
    with ((lo <=? k) && (k <? lo + seg_len r)) by lia.
  destruct ((lo <=? k) && (k <? lo + seg_len r)) eqn:C; cbn [andb]; [|reflexivity].
  cbv zeta. replace (t + k - o_addr (r_op r)) with (r_pos r + (k - lo)) by lia. reflexivity.
Qed.
Lemma piece_other r (m : mem) t k : align t = t -> t <> align (cur_addr r) -> k < 64 ->
  fold_left put (write_piece r) m (t + k) = m (t + k).
Proof.
  intros Ht Hne Hk. unfold write_piece. rewrite AceFacts.put_bytes.
  destruct (andb _ _) eqn:C; [|reflexivity]. exfalso.
  pose proof (align_off (cur_addr r)) as E. pose proof (seg_len_line r) as Hs. set (u := align (cur_addr r)) in *.
  assert (Eu : align u = u) by apply align_align. set (lo := line_off (cur_addr r)) in *. clearbody lo u. unfold cur_addr in E.
  destruct (lines_apart t u k (t + k - u)); auto; lia.
Qed.
Lemma put_mem_line m t d be k : k < 64 -> put_mem m t d be (t + k) = if be k then d k else m (t + k).
Proof.
  intro Hk. unfold put_mem. replace (t <=? t + k) with true by lia. replace (t + k <? t + 64) with true by lia.
  cbn. replace (t + k - t) with k by lia. reflexivity.
Qed.
Lemma put_mem_other m t d be u k : align t = t -> align u = u -> u <> t -> k < 64 ->
  put_mem m t d be (u + k) = m (u + k).
Proof.
  intros Ht Hu Hne Hk. unfold put_mem. destruct (andb _ _) eqn:C; [|reflexivity]. exfalso.
  destruct (lines_apart u t k (u + k - t)); auto; lia.
Qed.

(** ** Snoops *)
Inductive cls := K_Share | K_Once | K_Inval | K_None.
Definition cls_of (o : reqop) : cls :=
  match o with
  | ReadShared | ReadClean | ReadNSD => K_Share
  | ReadOnce => K_Once
  | Evict | WriteBackFull | WriteBackPtl | WriteCleanFull | WriteEvictFull => K_None
  | _ => K_Inval
  end.
Definition nzb (x : N) : bool := negb (N.land x 3 =? 0).
Definition pdb (x : N) : bool := negb (N.land x 4 =? 0).
Definition is_comp (o : option N) : bool := match o with Some _ => true | None => false end.

(** Requests whose snoop may find a dirty line when it asks to forward data. *)
Definition fwd_dirty_ok (o : reqop) : bool := match o with ReadOnce | ReadUnique => true | _ => false end.

(** What a snooped cache with the whole line does. *)
Record snooped (o : reqop) (fwd : bool) (l l' : line) (p : rsp) : Prop := {
  sn_tag : l_tag l' = l_tag l;
  sn_data : l_data l' = l_data l;
  sn_be : l_be l' = l_be l;
  sn_valid : l_valid l' = match cls_of o with K_Inval => false | _ => true end;
  sn_share : cls_of o = K_Share -> l_shared l' = true;
  sn_once : cls_of o = K_Once -> l' = l;
  sn_nz : nzb (r_resp p) = l_valid l';
  sn_zero : (r_resp p =? 0) || (r_resp p =? 4) = negb (l_valid l');
  sn_pd : pdb (r_resp p) = true -> r_rop p = R_Data /\ cls_of o <> K_Once;
  sn_pd_need : l_dirty l = true -> cls_of o = K_Once \/ o = MakeUnique \/ o = WriteUniqueFull \/ pdb (r_resp p) = true
               \/ (o = ReadUnique /\ r_comp p = Some 6);
  sn_ptl : r_rop p <> R_DataPtl;
  sn_comp : is_comp (r_comp p) = is_fwded (r_rop p);
  sn_fwd : is_read o = true -> r_comp p = None -> r_rop p = R_Data;
  sn_comp_val : forall c, r_comp p = Some c -> fwd = true /\ is_read o = true /\ pdb (r_resp p) = false /\
     (cls_of o = K_Share -> c = 1) /\ (o = ReadUnique -> c = 2 \/ c = 6)
}.
Lemma full_status l : full l -> l_valid l = true ->
  status_of l = Ok (if l_shared l then if l_dirty l then S_SD else S_SC else if l_dirty l then S_UD else S_UC).
Proof.
  intros H V. unfold status_of. rewrite V, (proj2 (grade_full l) H).
  destruct (l_shared l), (l_dirty l); reflexivity.
Qed.
Lemma handle_snp_spec o fwd q l :
  snp_of o fwd = Some q -> full l -> l_valid l = true ->
  (fwd = true -> l_dirty l = true -> fwd_dirty_ok o = true \/ snp_of o false = Some q) ->
  exists l' p, handle_snp q true l = Ok (l', p) /\ snooped o fwd l l' p.
Proof.
  intros Hq Hf V Hd. pose proof (full_status l Hf V) as S.
  unfold handle_snp. rewrite S.
  destruct o; cbn [snp_of] in Hq; try discriminate; injection Hq as <-;
    destruct fwd; cbn [rbind];
    destruct (l_shared l) eqn:Sh; destruct (l_dirty l) eqn:Di;
    try (exfalso; destruct (Hd eq_refl eq_refl) as [X|X]; discriminate X);
    (eexists _, _; split; [reflexivity|]);
    (constructor; cbn; rewrite ?V, ?Sh, ?Di; try reflexivity; try discriminate; auto 8;
     try (intros; split; [reflexivity|discriminate]);
     try (intros c X; injection X as <-; repeat split; auto; discriminate)).
Qed.

(** ** Combined responses *)
Definition nz (l : list N) : bool := existsb nzb l.
Definition pd (l : list N) : bool := existsb pdb l.
Lemma parse_spec l : parse l = if nz l then if pd l then 7 else 1 else if pd l then 6 else 2.
Proof. reflexivity. Qed.

End Facts.
