(** C102: a CHI atomic from the payload to memory and back (cache-chi.h,
    private/chi/txns-rn.h, iconnect-chi.h, sn-chi.h). *)
From Verif Require Import Base BaseFacts TlmModel SnModel SnSpec SnProofs SnProofs2 PropsSn
  AtomModel AtomSpec AtomProofs.
Open Scope N_scope.

(** ADD and CLR as AtomicStore and AtomicLoad, little-endian, when no cache has the
    line or only shared clean copies exist: memory gets the result, nothing else
    changes, a load leaves the old bytes in the payload and a store leaves the
    payload alone; whatever the uninitialised buffers hold.  Missing: the other
    operations (C99_operations_refuted) and what is refuted below. *)
Theorem C102_store_load_partial acc m p st o own h j :
  let n := p_len p in
  p_op p = op_base st + aop_code o -> o = A_ADD \/ o = A_CLR -> op_len n ->
  pay_ok p -> p_big p = false -> quiet h -> junk_ok j -> mem_ok m ->
  acc C_READ (p_addr p) n = true -> acc C_WRITE (p_addr p) n = true ->
  exists m' h',
    atomic acc m p own h j = Ok (m', Some (if st then p_data p else bytes_at m (p_addr p) n), h') /\
    quiet h' /\ same_outside m m' (p_addr p) n /\
    atomic_result o n (word false (bytes_at m (p_addr p) n)) (word false (operand st p))
      (word false (bytes_at m' (p_addr p) n)).
Proof.
  intros n Op Ho Ln PO _ Q (_ & _ & _ & J1 & J2) M A1 A2.
  pose proof PO as (Ld & Be & La & Hin). fold n in Hin.
  assert (Cd : aop_code o < 8) by (destruct o; reflexivity).
  assert (Nn : n <= 8) by (unfold op_len in Ln; lia).
  destruct (snoop_quiet acc m p n own h j Q) as (h' & Es & Qh & _).
  (* what the requester sends *)
  assert (Msg : exists l, rn_msg p = Ok (n, l) /\ length (fst l) = 64%nat /\ length (snd l) = 64%nat /\
    forall i, (i < N.to_nat n)%nat ->
      nth (N.to_nat (p_addr p mod 64) + i) (snd l) 0 = 255 /\
      nth (N.to_nat (p_addr p mod 64) + i) (fst l) 0 = nth i (operand st p) 0).
  { unfold rn_msg, p_store, p_compare, OP_AtomicLoad, OP_AtomicCompare. rewrite Op. destruct st; cbn [op_base operand].
    - replace (40 + aop_code o <? 48) with true by lia. exists (rn_store p).
      split; [reflexivity|].
      split; [unfold rn_store; cbn [fst]; rewrite map_length, seq_length; reflexivity|].
      split; [unfold rn_store; cbn [snd]; rewrite map_length, seq_length; reflexivity|].
      intros i Hi. destruct (rn_store_nth p (N.to_nat (p_addr p mod 64) + i) ltac:(lia) Be Hin) as [R1 R2].
      fold n in R1, R2. rewrite R1, R2.
      replace ((p_addr p mod 64 <=? N.of_nat (N.to_nat (p_addr p mod 64) + i)) &&
               (N.of_nat (N.to_nat (p_addr p mod 64) + i) <? p_addr p mod 64 + n)) with true by lia.
      split; [reflexivity|]. f_equal. lia.
    - replace (48 + aop_code o <? 48) with false by lia. replace (48 + aop_code o =? 57) with false by lia.
      unfold rn_load. fold n. rewrite line_off_mod. unfold MaxDataSz, LINE.
      replace ((32 <? n) || (64 <? p_addr p mod 64 + n)) with false by lia.
      destruct blank_length as [B1 B2].
      destruct (put_length (p_addr p mod 64) n (p_attr p) blank Hin ltac:(lia) B1 B2) as [P1 P2].
      eexists. split; [reflexivity|]. split; [exact P1|]. split; [exact P2|].
      intros i Hi.
      destruct (put_nth (p_addr p mod 64) n (p_attr p) blank (N.to_nat (p_addr p mod 64) + i) Hin ltac:(lia) B1 B2) as [R1 R2].
      rewrite R1, R2.
      replace ((p_addr p mod 64 <=? N.of_nat (N.to_nat (p_addr p mod 64) + i)) &&
               (N.of_nat (N.to_nat (p_addr p mod 64) + i) <? p_addr p mod 64 + n)) with true by lia.
      split; [reflexivity|]. fold n. unfold lanes. rewrite nth_map_seq by exact Hi. f_equal. lia. }
  destruct Msg as (l & Em & L1 & L2 & Pl).
  set (q := home_req (p_op p) (p_addr p) n).
  assert (Ka : is_atomic q = true).
  { unfold is_atomic, q, home_req, OP_AtomicStore, OP_AtomicCompare. cbn [q_op]. rewrite Op. destruct st; cbn [op_base]; lia. }
  destruct (at_sn_atomic acc m q l (j_ad j) (j_ab j) Ka L2 J1 J2) as (t & Et & Rq & Bt & Pt).
  destruct (C99_store_load_partial acc m t st o) as (m' & d & Ex & So & _ & AR & D);
    rewrite ?Rq; cbn [q home_req q_op q_len q_addr q_big]; try assumption.
  rewrite Rq in Ex, So, AR, D. cbn [q home_req q_op q_len q_addr q_big] in Ex, So, AR, D.
  assert (Eo : lanes (t_data t) (p_addr p mod 64) n = operand st p).
  { apply list_nth_eq.
    - rewrite lanes_length. unfold operand. destruct st; [symmetry; exact Ld | rewrite lanes_length; reflexivity].
    - intros i Hi. rewrite lanes_length in Hi. destruct (Pl i Hi) as [P1 P2].
      unfold lanes. rewrite nth_map_seq by exact Hi. rewrite Pt by (exact P1 || lia). exact P2. }
  rewrite Eo in AR.
  exists m', h'. unfold atomic. rewrite Em. cbn [rbind fst snd]. rewrite Es. cbn [rbind].
  fold q. rewrite Et, Ex. cbn [rbind]. destruct st.
  - subst d. split; [reflexivity|]. split; [exact Qh|]. split; [exact So | exact AR].
  - destruct D as (d' & -> & R & _).
    destruct (receive_ok d' m (p_addr p) n (fst l) R Hin L1) as (md' & Er & Lm & Pm).
    rewrite Er. cbn [rmap rbind fst snd]. fold n. rewrite N.eqb_refl.
    rewrite (rn_read_ok p m md' PO Pm).
    split; [reflexivity|]. split; [exact Qh|]. split; [exact So | exact AR].
Qed.

(** AtomicSwap of up to 32 bytes. *)
Theorem C102_swap acc m p own h j :
  let n := p_len p in
  p_op p = 56 -> n <= 32 -> pay_ok p -> quiet h -> junk_ok j ->
  acc C_READ (p_addr p) n = true -> acc C_WRITE (p_addr p) n = true ->
  exists m' h',
    atomic acc m p own h j = Ok (m', Some (bytes_at m (p_addr p) n), h') /\
    quiet h' /\ same_outside m m' (p_addr p) n /\
    bytes_at m' (p_addr p) n = lanes (p_attr p) 0 n.
Proof.
  intros n Op Nn PO Q (_ & _ & _ & J1 & J2) A1 A2.
  pose proof PO as (Ld & Be & La & Hin). fold n in Hin.
  destruct (snoop_quiet acc m p n own h j Q) as (h' & Es & Qh & _).
  destruct blank_length as [B1 B2].
  destruct (put_length (p_addr p mod 64) n (p_attr p) blank Hin ltac:(lia) B1 B2) as [L1 L2].
  pose proof (fun i => put_nth (p_addr p mod 64) n (p_attr p) blank i Hin ltac:(lia) B1 B2) as Pl.
  assert (Em : rn_msg p = Ok (n, put (p_addr p mod 64) n (p_attr p) blank)).
  { unfold rn_msg, p_store, p_compare. rewrite Op. cbn [N.ltb N.compare Pos.compare Pos.compare_cont OP_AtomicLoad].
    change (56 =? OP_AtomicCompare) with false. change (56 <? 48) with false. cbn iota.
    unfold rn_load. fold n. rewrite line_off_mod. unfold MaxDataSz, LINE.
    replace ((32 <? n) || (64 <? p_addr p mod 64 + n)) with false by lia. reflexivity. }
  set (l := put (p_addr p mod 64) n (p_attr p) blank) in *.
  set (q := home_req (p_op p) (p_addr p) n).
  assert (Ka : is_atomic q = true) by (unfold is_atomic, q, home_req; cbn [q_op]; rewrite Op; reflexivity).
  destruct (at_sn_atomic acc m q l (j_ad j) (j_ab j) Ka L2 J1 J2) as (t & Et & Rq & Bt & Pt).
  destruct (C99_swap acc m t) as (m' & d & Ex & So & Wr & R & _);
    rewrite ?Rq; cbn [q home_req q_op q_len q_addr q_big]; try assumption.
  rewrite Rq in Ex, So, Wr, R. cbn [q home_req q_op q_len q_addr q_big] in Ex, So, Wr, R.
  assert (Eo : lanes (t_data t) (p_addr p mod 64) n = lanes (p_attr p) 0 n).
  { apply lanes_ext. intros i Hi. destruct (Pl (N.to_nat (p_addr p mod 64) + i)%nat) as [P1 P2].
    replace ((p_addr p mod 64 <=? N.of_nat (N.to_nat (p_addr p mod 64) + i)) &&
             (N.of_nat (N.to_nat (p_addr p mod 64) + i) <? p_addr p mod 64 + n)) with true in P1, P2 by lia.
    rewrite Pt by (exact P2 || lia). rewrite P1. f_equal. lia. }
  destruct (receive_ok d m (p_addr p) n (fst l) R Hin L1) as (md' & Er & Lm & Pm).
  exists m', h'. unfold atomic. rewrite Em. cbn [rbind fst snd]. rewrite Es. cbn [rbind].
  fold q. rewrite Et, Ex. cbn [rbind]. rewrite Er. cbn [rmap rbind fst snd]. fold n. rewrite N.eqb_refl.
  rewrite (rn_read_ok p m md' PO Pm). rewrite <- Eo.
  split; [reflexivity|]. split; [exact Qh|]. split; [exact So | exact Wr].
Qed.

(** AtomicCompare: compare data first, swap data second in the extension, the
    address aligned to the operand size. *)
Theorem C102_compare acc m p own h j :
  let n := p_len p in
  p_op p = 57 -> cmp_len (2 * n) -> p_addr p mod n = 0 -> pay_ok p -> quiet h -> junk_ok j ->
  acc C_READ (p_addr p) (2 * n) = true -> acc C_WRITE (p_addr p) (2 * n) = true ->
  exists m' h',
    atomic acc m p own h j = Ok (m', Some (bytes_at m (p_addr p) n), h') /\
    quiet h' /\ same_outside m m' (p_addr p) n /\
    (bytes_at m (p_addr p) n = lanes (p_attr p) 0 n -> bytes_at m' (p_addr p) n = lanes (p_attr p) n n) /\
    (bytes_at m (p_addr p) n <> lanes (p_attr p) 0 n -> forall x, m' x = m x).
Proof.
  intros n Op Ln Al PO Q (_ & _ & _ & J1 & J2) A1 A2.
  pose proof PO as (Ld & Be & La & Hin). fold n in Hin.
  destruct (snoop_quiet acc m p (2 * n) own h j Q) as (h' & Es & Qh & _).
  set (off := p_addr p mod 64) in *.
  assert (O : off < 64) by (apply N.mod_lt; discriminate).
  assert (N16 : 0 < n <= 16) by (unfold cmp_len in Ln; lia).
  (* the address is at the start or in the middle of its window *)
  assert (Half : 2 * n / 2 = n) by (rewrite N.mul_comm; apply N.div_mul; discriminate).
  assert (C : off mod (2 * n) = 0 \/ off mod (2 * n) = 2 * n / 2).
  { rewrite Half.
    assert (Ao : off mod n = 0).
    { unfold off. pose proof (N.div_mod (p_addr p) 64 ltac:(discriminate)) as D1.
      apply N.mod_divide in Al; [|lia]. destruct Al as [k Ek]. set (a := p_addr p) in *.
      set (u := a / 64) in *. set (r := a mod 64) in *. clearbody a u r n. clear - D1 Ek Ln.
      apply N.mod_divide; [unfold cmp_len in Ln; lia|].
      unfold cmp_len in Ln.
      assert (Cs : n = 1 \/ n = 2 \/ n = 4 \/ n = 8 \/ n = 16) by lia. clear Ln.
      destruct Cs as [->|[->|[->|[->| ->]]]];
        [exists (k - 64 * u) | exists (k - 32 * u) | exists (k - 16 * u) | exists (k - 8 * u) | exists (k - 4 * u)]; lia. }
    clearbody off. clear - Ao N16.
    pose proof (N.div_mod off n ltac:(lia)) as D. rewrite Ao, N.add_0_r in D.
    set (k := off / n) in *. clearbody k. subst off.
    rewrite (N.mul_comm 2 n), N.mul_mod_distr_l by lia.
    assert (k mod 2 = 0 \/ k mod 2 = 1) as [E|E] by (pose proof (N.mod_lt k 2 ltac:(discriminate)); lia); rewrite E; lia. }
  destruct (half_bounds off (2 * n) Ln O C) as [H1 H2]. rewrite Half in H1.
  set (so := other_half off (2 * n)) in *.
  assert (Eso : (if off mod (2 * n) =? 0 then off + n else off - n) = so /\
                negb (off mod (2 * n) =? 0) && (off <? n) = false /\ (so = off + n \/ so + n = off)).
  { unfold so, other_half. rewrite Half in C |- *.
    pose proof (N.div_mod off (2 * n) ltac:(lia)) as D. set (k := off / (2 * n)) in *.
    set (r := off mod (2 * n)) in *. clearbody k r off. clear - C D N16.
    destruct C as [-> | ->].
    - cbn [N.eqb negb andb]. rewrite !N.sub_0_r. split; [lia|]. split; [reflexivity | left; lia].
    - replace (n =? 0) with false by lia. cbn [negb andb]. split; [nia|]. split; [nia | right; nia]. }
  destruct Eso as (Eso & Eneg & Cso). rewrite Half in H2.
  destruct blank_length as [B1 B2].
  set (l0 := put off n (p_attr p) blank).
  destruct (put_length off n (p_attr p) blank Hin ltac:(lia) B1 B2) as [M1 M2]. fold l0 in M1, M2.
  assert (Ls : n <= N.of_nat (length (skipn (N.to_nat n) (p_attr p)))) by (rewrite skipn_length; lia).
  set (l := put so n (skipn (N.to_nat n) (p_attr p)) l0).
  destruct (put_length so n (skipn (N.to_nat n) (p_attr p)) l0 H2 Ls M1 M2) as [L1 L2]. fold l in L1, L2.
  assert (Em : rn_msg p = Ok (2 * n, l)).
  { unfold rn_msg, p_store, p_compare. rewrite Op.
    change (57 =? OP_AtomicCompare) with true. change (57 <? OP_AtomicLoad) with false. cbn iota.
    unfold rn_compare. fold n. rewrite line_off_mod. fold off. unfold MaxDataSz, LINE.
    replace ((n =? 0) || (32 <? 2 * n)) with false by lia. rewrite Eneg, Eso.
    replace ((64 <? off + n) || (64 <? so + n)) with false by lia. reflexivity. }
  set (q := home_req (p_op p) (p_addr p) (2 * n)).
  assert (Ka : is_atomic q = true) by (unfold is_atomic, q, home_req; cbn [q_op]; rewrite Op; reflexivity).
  destruct (at_sn_atomic acc m q l (j_ad j) (j_ab j) Ka L2 J1 J2) as (t & Et & Rq & Bt & Pt).
  destruct (C99_compare acc m t) as (m' & log & d & Ex & Sx & Y & No & R & _);
    rewrite ?Rq; cbn [q home_req q_op q_len q_addr q_big]; try assumption.
  rewrite Rq in Sx, Y, No, R. cbn [q home_req q_op q_len q_addr q_big] in Sx, Y, No, R.
  rewrite Half in Sx, Y, No, R. fold off in Y, No. fold so in Y.
  clear Ln C Al Eso Eneg Half.
  assert (Ec : lanes (t_data t) off n = lanes (p_attr p) 0 n).
  { clear Em Es Et Ex Y No R Sx A1 A2. clearbody so off. apply lanes_ext. intros i Hi.
    destruct (put_nth off n (p_attr p) blank (N.to_nat off + i) Hin ltac:(lia) B1 B2) as [P1 P2].
    destruct (put_nth so n (skipn (N.to_nat n) (p_attr p)) l0 (N.to_nat off + i) H2 Ls M1 M2) as [P3 P4].
    fold l0 in P1, P2. fold l in P3, P4.
    replace ((off <=? N.of_nat (N.to_nat off + i)) && (N.of_nat (N.to_nat off + i) <? off + n)) with true in P1, P2 by lia.
    replace ((so <=? N.of_nat (N.to_nat off + i)) && (N.of_nat (N.to_nat off + i) <? so + n)) with false in P3, P4 by lia.
    rewrite Pt by (lia || (rewrite P4; exact P2)). rewrite P3, P1. f_equal. lia. }
  assert (Ew : lanes (t_data t) so n = lanes (p_attr p) n n).
  { clear Em Es Et Ex Y No R Sx A1 A2 Cso. clearbody so off. apply lanes_ext. intros i Hi.
    destruct (put_nth so n (skipn (N.to_nat n) (p_attr p)) l0 (N.to_nat so + i) H2 Ls M1 M2) as [P3 P4]. fold l in P3, P4.
    replace ((so <=? N.of_nat (N.to_nat so + i)) && (N.of_nat (N.to_nat so + i) <? so + n)) with true in P3, P4 by lia.
    rewrite Pt by (lia || exact P4). rewrite P3.
    replace (N.to_nat so + i - N.to_nat so)%nat with i by lia.
    rewrite <- (firstn_skipn (N.to_nat n) (p_attr p)) at 2.
    rewrite app_nth2 by (rewrite firstn_length; lia). f_equal. rewrite firstn_length. lia. }
  rewrite Ec in Y, No. rewrite Ew in Y.
  destruct (receive_ok d m (p_addr p) n (fst l) R Hin L1) as (md' & Er & Lm & Pm).
  exists m', h'. unfold atomic. rewrite Em. cbn [rbind fst snd]. rewrite Es. cbn [rbind].
  fold q. rewrite Et, Ex. cbn [rbind]. rewrite Er. cbn [rmap rbind fst snd]. fold n. rewrite N.eqb_refl.
  rewrite (rn_read_ok p m md' PO Pm).
  split; [reflexivity|]. split; [exact Qh|]. split; [exact Sx|]. split; [exact Y | exact No].
Qed.

(** Shared copies elsewhere are invalidated by ADD, swap and compare; AtomicStore
    does not depend on SnpAttr of the payload. *)
Theorem C102_invalidates_partial acc m p h j m' r h' :
  In (p_op p) [40; 48; 56; 57] -> p_op p = 40 \/ p_snp p = true -> quiet h ->
  atomic acc m p false h j = Ok (m', r, h') -> h' = HNone.
Proof.
  intros Op Sp Q.
  assert (S : snoops p false = true).
  { unfold snoops, rn_snp, p_store, snooping. destruct Sp as [-> | ->]; [reflexivity|].
    rewrite orb_true_r. cbn [andb negb]. rewrite andb_true_r.
    destruct Op as [<-|[<-|[<-|[<-|[]]]]]; reflexivity. }
  unfold atomic. destruct (rn_msg p) as [[len l]| | |]; try discriminate. cbn [rbind fst snd].
  destruct (snoop_quiet acc m p len false h j Q) as (h1 & Es & _ & H1). rewrite Es. cbn [rbind].
  specialize (H1 S). subst h1.
  destruct (at_sn acc m (home_req (p_op p) (p_addr p) len) (home_data l) (j_ad j) (j_ab j)) as [[[m2 lg] d]| | |];
    try discriminate. cbn [rbind]. destruct d as [dm|].
  - destruct (rn_receive (fst l) 0 [(0, d_data dm, match d_be dm with Some be => be | None => [] end)]) as [x| | |];
      try discriminate. cbn [rmap rbind]. intros E. apply Ok_inj in E. congruence.
  - intros E. apply Ok_inj in E. congruence.
Qed.

Definition junk_ex (be v : N) : junk := mkJunk (repeat be 64) (repeat v 64) (repeat v 64) (repeat v 64) (repeat v 64).
Definition attr_ex (l : list N) : list N := l ++ repeat 0 (32 - length l).
Definition pay_ex (op addr : N) (data attr : list N) (big : bool) : apay :=
  mkApay op addr (N.of_nat (length data)) data [] (attr_ex attr) big true false.
Lemma outcome (r : res (mem * option (list N) * holder)) x h (P : mem -> Prop) :
  match r with Ok (m', x', h') => x' = x /\ h' = h /\ P m' | _ => False end ->
  exists m', r = Ok (m', x, h) /\ P m'.
Proof.
  destruct r as [[[m' x'] h']| | |]; try contradiction. intros (-> & -> & H). exists m'. split; [reflexivity | exact H].
Qed.
Definition all_ok : acceptor := fun _ _ _ => true.

(** A load-add of 0x0203 to 0x00ff at 0x46. *)
Example C102_store_load_case :
  match atomic all_ok (fun x => if x =? 70 then 255 else if x =? 71 then 0 else x)
          (pay_ex 48 70 [9; 9] [3; 2] false) false HShared (junk_ex 7 99) with
  | Ok (m', r, h) => bytes_at m' 69 4 = [69; 2; 3; 72] /\ r = Some [255; 0] /\ h = HNone
  | _ => False
  end.
Proof. vm_compute. repeat split. Qed.
Example C102_swap_case :
  match atomic all_ok (fun x => x) (pay_ex 56 70 [9; 9; 9] [3; 2; 1] false) false HNone (junk_ex 7 99) with
  | Ok (m', r, h) => bytes_at m' 69 5 = [69; 3; 2; 1; 73] /\ r = Some [70; 71; 72]
  | _ => False
  end.
Proof. vm_compute. repeat split. Qed.
Example C102_compare_case :
  match atomic all_ok (fun x => x) (pay_ex 57 70 [9; 9] [70; 71; 5; 6] false) false HNone (junk_ex 7 99) with
  | Ok (m', r, h) => bytes_at m' 68 6 = [68; 69; 5; 6; 72; 73] /\ r = Some [70; 71]
  | _ => False
  end.
Proof. vm_compute. repeat split. Qed.

(** The byte order asked for does not get to the slave node: the outcome is that of
    the little-endian operation, so a big-endian ADD of 1 to 0x00ff leaves 0. *)
Theorem C102_endian_refuted :
  (forall acc m op addr n data be attr snp me own h j,
     atomic acc m (mkApay op addr n data be attr true snp me) own h j =
     atomic acc m (mkApay op addr n data be attr false snp me) own h j) /\
  exists m p m' h', pay_ok p /\ p_big p = true /\ p_op p = 48 /\
    atomic all_ok m p false HNone (junk_ex 0 0) = Ok (m', Some [0; 255], h') /\
    word true (bytes_at m (p_addr p) 2) = 255 /\ word true (operand false p) = 1 /\
    word true (bytes_at m' (p_addr p) 2) = 0 /\ atomic_result A_ADD 2 255 1 256.
Proof.
  split; [reflexivity|].
  exists (fun x => if x =? 1 then 255 else 0), (pay_ex 48 0 [0; 0] [0; 1] true).
  do 2 eexists. split; [split; [reflexivity | split; [reflexivity | split; [reflexivity | vm_compute; discriminate]]]|].
  split; [reflexivity|]. split; [reflexivity|]. split; [reflexivity|]. split; [reflexivity|]. split; [reflexivity|].
  split; [reflexivity|]. split; [reflexivity | exists 0; reflexivity].
Qed.

(** Another cache has the line dirty (all bytes 1).  An AtomicStore ADD of 1 at
    byte 8 takes the line from that cache; then even with all byte enables on,
    bytes 0-7 of it are lost, and the addition does not happen: 1, not 2.  With
    the byte enables of the write-back off, which they are never set to be, the
    whole line is lost. *)
Theorem C102_dirty_refuted :
  exists m p d, pay_ok p /\ p_op p = 40 /\ p_addr p = 8 /\ p_len p = 4 /\
    (forall i, (i < 64)%nat -> current m 0 (HDirty d) (N.of_nat i) = 1) /\
    (exists m', atomic all_ok m p false (HDirty d) (junk_ex 255 0) = Ok (m', Some (p_data p), HNone) /\
       bytes_at m' 0 8 = repeat 0 8 /\ word false (bytes_at m' 8 1) = 1) /\
    (exists m', atomic all_ok m p false (HDirty d) (junk_ex 0 0) = Ok (m', Some (p_data p), HNone) /\
       bytes_at m' 0 64 = repeat 0 64).
Proof.
  exists (fun _ => 0), (pay_ex 40 8 [1; 0; 0; 0] [] false), (repeat 1 64).
  split; [split; [reflexivity | split; [reflexivity | split; [reflexivity | vm_compute; discriminate]]]|].
  split; [reflexivity|]. split; [reflexivity|]. split; [reflexivity|].
  split.
  { intros i Hi. unfold current. replace ((0 <=? N.of_nat i) && (N.of_nat i <? 0 + 64)) with true by lia.
    replace (N.to_nat (N.of_nat i - 0)) with i by lia. rewrite (nth_indep _ 0 1) by exact Hi. apply nth_repeat. }
  split; apply outcome; vm_compute; repeat split.
Qed.

(** The same with an AtomicLoad runs over the end of a buffer. *)
Theorem C102_dirty_load_refuted :
  exists m p d, pay_ok p /\ p_op p = 48 /\
    forall be v, atomic all_ok m p false (HDirty d) (junk_ex be v) = UB.
Proof.
  exists (fun _ => 0), (pay_ex 48 8 [0; 0; 0; 0] [1] false), (repeat 1 64).
  split; [split; [reflexivity | split; [reflexivity | split; [reflexivity | vm_compute; discriminate]]]|].
  split; [reflexivity|]. intros be v. reflexivity.
Qed.

(** Another cache has the line unique and clean.  A 4-byte AtomicSwap at the start
    of the line writes 64 bytes, all but four of them out of an uninitialised
    buffer, and the call does not return. *)
Theorem C102_clean_refuted :
  exists m p d, pay_ok p /\ p_op p = 56 /\ p_len p = 4 /\ bytes_at m 0 64 = d /\
    exists m', atomic all_ok m p false (HClean d) (junk_ex 0 99) = Ok (m', None, HNone) /\
      bytes_at m' 4 60 = repeat 99 60 /\ bytes_at m 4 60 = repeat 0 60.
Proof.
  exists (fun _ => 0), (pay_ex 56 0 [0; 0; 0; 0] [1; 2; 3; 4] false), (repeat 0 64).
  split; [split; [reflexivity | split; [reflexivity | split; [reflexivity | vm_compute; discriminate]]]|].
  split; [reflexivity|]. split; [reflexivity|]. split; [reflexivity|].
  apply outcome. vm_compute. repeat split.
Qed.

(** Of AtomicStore and AtomicLoad only ADD snoops: with any other sub-opcode the
    other copies stay, and the old value returned is that of memory, not of the
    dirty copy. *)
Theorem C102_unsnooped_refuted :
  (forall acc m p st o own h j m' r h', p_op p = op_base st + aop_code o -> o <> A_ADD ->
     atomic acc m p own h j = Ok (m', r, h') -> h' = h) /\
  exists m p d m', pay_ok p /\ p_op p = 49 /\ p_snp p = true /\
    current m 0 (HDirty d) 0 = 7 /\
    atomic all_ok m p false (HDirty d) (junk_ex 0 0) = Ok (m', Some [0], HDirty d).
Proof.
  split.
  - intros acc m p st o own h j m' r h' Op No. unfold atomic.
    destruct (rn_msg p) as [[len l]| | |]; try discriminate. cbn [rbind fst snd].
    assert (S : snoops p own = false).
    { unfold snoops, snooping. rewrite Op. destruct o; try congruence; destruct st; cbn [op_base aop_code];
        vm_compute existsb; rewrite andb_false_r; reflexivity. }
    unfold home_snoop. rewrite S. cbn [rbind].
    destruct (at_sn acc m (home_req (p_op p) (p_addr p) len) (home_data l) (j_ad j) (j_ab j)) as [[[m2 lg] d]| | |];
      try discriminate. cbn [rbind]. destruct d as [dm|].
    + destruct (rn_receive (fst l) 0 [(0, d_data dm, match d_be dm with Some be => be | None => [] end)]) as [x| | |];
        try discriminate. cbn [rmap rbind]. intros E. apply Ok_inj in E. congruence.
    + intros E. apply Ok_inj in E. congruence.
  - exists (fun _ => 0), (pay_ex 49 0 [0] [1] false), (repeat 7 64). eexists.
    split; [split; [reflexivity | split; [reflexivity | split; [reflexivity | vm_compute; discriminate]]]|].
    split; [reflexivity|]. split; [reflexivity|]. split; [reflexivity|]. vm_compute. reflexivity.
Qed.

(** No atomic reaches the requester's own copy, even with SnoopMe: a dirty copy
    there survives and hides the result. *)
Theorem C102_own_refuted :
  (forall acc m p h j m' r h', atomic acc m p true h j = Ok (m', r, h') -> h' = h) /\
  exists m p d m', pay_ok p /\ p_op p = 48 /\ p_me p = true /\
    atomic all_ok m p true (HDirty d) (junk_ex 0 0) = Ok (m', Some [0], HDirty d) /\
    current m 0 (HDirty d) 0 = 7 /\ current m' 0 (HDirty d) 0 = 7.
Proof.
  split.
  - intros acc m p h j m' r h'. unfold atomic.
    destruct (rn_msg p) as [[len l]| | |]; try discriminate. cbn [rbind fst snd].
    assert (S : snoops p true = false) by (unfold snoops; apply andb_false_r).
    unfold home_snoop. rewrite S. cbn [rbind].
    destruct (at_sn acc m (home_req (p_op p) (p_addr p) len) (home_data l) (j_ad j) (j_ab j)) as [[[m2 lg] d]| | |];
      try discriminate. cbn [rbind]. destruct d as [dm|].
    + destruct (rn_receive (fst l) 0 [(0, d_data dm, match d_be dm with Some be => be | None => [] end)]) as [x| | |];
        try discriminate. cbn [rmap rbind]. intros E. apply Ok_inj in E. congruence.
    + intros E. apply Ok_inj in E. congruence.
  - exists (fun _ => 0), (mkApay 48 0 1 [1] [] (attr_ex [1]) false true true), (repeat 7 64). eexists.
    split; [split; [reflexivity | split; [reflexivity | split; [reflexivity | vm_compute; discriminate]]]|].
    split; [reflexivity|]. split; [reflexivity|]. split; [vm_compute; reflexivity|]. split; reflexivity.
Qed.

(** Returned data in two packets of 32 bytes: that of the upper half of the line
    is put into the lower half, and the requester reads its own operand back. *)
Theorem C102_packets_refuted :
  exists p msg md, pay_ok p /\ p_op p = 56 /\ p_addr p mod 64 = 32 /\
    rn_msg p = Ok (p_len p, msg) /\
    rn_receive (fst msg) 0 [(0, repeat 0 32, repeat 0 32); (1, 77 :: repeat 0 31, 255 :: repeat 0 31)] =
      Ok (md, p_len p) /\
    rn_read p md = [5].
Proof.
  exists (pay_ex 56 32 [0] [5] false). do 2 eexists.
  split; [split; [reflexivity | split; [reflexivity | split; [reflexivity | vm_compute; discriminate]]]|].
  split; [reflexivity|]. split; [reflexivity|]. split; [reflexivity|].
  split; vm_compute; reflexivity.
Qed.

Print Assumptions C102_store_load_partial.
Print Assumptions C102_swap.
Print Assumptions C102_compare.
Print Assumptions C102_invalidates_partial.
Print Assumptions C102_endian_refuted.
Print Assumptions C102_dirty_refuted.
Print Assumptions C102_dirty_load_refuted.
Print Assumptions C102_clean_refuted.
Print Assumptions C102_unsnooped_refuted.
Print Assumptions C102_own_refuted.
Print Assumptions C102_packets_refuted.
