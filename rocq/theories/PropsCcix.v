(** C68, C69: CCIX messages in TLPs. *)
From Verif Require Import Base BaseFacts TlmModel TlpModel TlpProofs CcixModel CcixSpec CcixProofs CcixProofs2.
From Verif Require CxsModel CxsSpec CxsProofs PropsCxs.
Open Scope N_scope.

(** ** C68: messages *)
Theorem C68_receiver h tgt src credit cs fuel : tgt < 64 -> src < 64 -> credit < 64 -> Forall cmsg_ok cs ->
  N.of_nat (length (flat_map layout cs)) / 4 < hdr_max h -> (length cs < fuel)%nat ->
  exists rs, extract_tlp h fuel (tlp_layout h tgt src credit cs) = Some (Ok rs) /\ all_received cs tgt src credit rs.
Proof. apply extract_tlp_spec. Qed.

Definition bytes (a n : nat) : list N := map N.of_nat (seq a n).
(** a read with a full address, user bits and other IDs, a response with data and error bits,
    credits, NOP, a message with a payload, and a write with byte enables *)
Definition good : list cmsg :=
  [Request 7 0 64 (2 ^ 63 + 2 ^ 55 + 4660) 0 3 (mkExt (Some (9, 8)) true (Some 77) None) None [];
   Response 9 1234 1 3 (mkExt None false None (Some (2, 5, 5))) None (bytes 1 32);
   Credits 1 4 3 2 1; Nop; Misc 2 6 (bytes 40 7);
   Request 11 34 64 (2 ^ 40 + 64) 1 0 no_ext
     (Some (map (fun i => Nat.leb 3 i && Nat.ltb i 10) (seq 0 16))) (bytes 100 16)].
Definition head3 (r : rmsg) := (rx_type r, r_addr r, get (r_attr r) TxnID, get (r_attr r) TgtID).
Ltac byte_list := repeat constructor.
Ltac okay := first
  [ reflexivity | lia | discriminate | exact I | left; reflexivity | right; reflexivity
  | intros ? H; inversion H; subst; reflexivity
  | intros ? ? ? H; inversion H; subst; repeat split; reflexivity
  | intros H; exfalso; apply H; reflexivity
  | intros _; left; cbn; tauto
  | cbn; tauto | cbn; lia | byte_list
  | let H := fresh in intro H; cbn in H; repeat (destruct H as [H|H]; [discriminate H|]); exact H ].
Ltac splits := repeat match goal with |- _ /\ _ => split end.
Lemma good_ok : Forall cmsg_ok good.
Proof.
  unfold good. repeat (apply Forall_cons; [cbn [cmsg_ok]; unfold ext_ok, poison_same, data_ok; cbn [x_ids x_low x_user x_err no_ext]; splits; okay|]). constructor.
Qed.
Example C68_receiver_case :
  match extract_tlp Opt 10 (tlp_layout Opt 1 2 33 good) with
  | Some (Ok rs) =>
    Some (map head3 rs, map r_cmd rs, map (fun r => get (r_attr r) MsgCredit) rs, map (fun r => firstn 9 (r_pay r)) (firstn 1 (skipn 4 rs)), map (fun r => option_map (firstn 12) (r_be r)) (skipn 5 rs))
  | _ => None end =
  Some ([(1, 2 ^ 63 + 2 ^ 55 + 4660, 7, 9); (9, 0, 1234, 1); (11, 0, 0, 1); (11, 0, 0, 1); (3, 0, 0, 1); (1, 2 ^ 40 + 64, 11, 1)],
        [C_IGNORE; C_WRITE; C_IGNORE; C_IGNORE; C_IGNORE; C_WRITE], [33; 0; 0; 0; 0; 0], [bytes 40 7 ++ [0; 0]],
        [Some (repeat BE_OFF 3 ++ repeat BE_ON 7 ++ repeat BE_OFF 2)]).
Proof. vm_compute. reflexivity. Qed.

Theorem C68_sender h m : sendable m ->
  tlp_of h m = Ok (Some (tlp_layout h (m_attr m TgtID) (m_attr m SrcID) (m_attr m MsgCredit) [sent m])).
Proof. apply tlp_sent. Qed.

Lemma one_body h m : sendable m -> N.of_nat (length (flat_map layout [sent m])) / 4 < hdr_max h.
Proof.
  intros (_ & O & _). cbn [flat_map]. rewrite app_nil_r, (layout_length _ O), N.mul_comm, N.div_mul by discriminate.
  pose proof (msg_len_lt _ O) as [L _]. eapply N.lt_le_trans; [exact L|]. destruct h; discriminate.
Qed.
Theorem C68_round_trip h m : sendable m ->
  exists d r, tlp_of h m = Ok (Some d) /\ extract_tlp h 2 d = Some (Ok [r]) /\ same m r.
Proof.
  intros S. pose proof S as (_ & O & I1 & I2 & I3 & _).
  destruct (extract_tlp_spec h (m_attr m TgtID) (m_attr m SrcID) (m_attr m MsgCredit) [sent m] 2 I1 I2 I3) as (rs & E & A).
  - constructor; [exact O|constructor].
  - apply one_body. exact S.
  - cbn. lia.
  - destruct rs as [|r [|r' rs]]; cbn [all_received] in A; [contradiction| |destruct A as [_ []]]. destruct A as [A _].
    exists (tlp_layout h (m_attr m TgtID) (m_attr m SrcID) (m_attr m MsgCredit) [sent m]), r.
    split; [apply tlp_sent; exact S|]. split; [exact E|]. apply received_same; assumption.
Qed.

(** a 64 byte write with every fourth byte disabled, over the CXS link *)
Definition hd : list (key * N) := [(TgtID, 3); (SrcID, 4); (MsgCredit, 21)].
Definition wr64 : msg :=
  mkMsg C_WRITE (2 ^ 41 + 128) (bytes 1 64) (Some [BE_ON; BE_ON; BE_OFF; BE_ON])
    (get ([(MsgType, 1); (TxnID, 600); (ReqOp, 34); (ReqAttr, 101); (NonSecure, 0); (QoS, 9)] ++ hd)) (repeat 0 32).
Definition snoop1 : msg :=
  mkMsg C_IGNORE (2 ^ 41 + 128) [] None (get ([(MsgType, 2); (TxnID, 601); (SnpOp, 3); (DataRet, 1)] ++ hd)) (repeat 0 32).
Lemma wr64_sendable : sendable wr64.
Proof.
  assert (E : sent wr64 = Request 600 34 101 (2 ^ 41 + 128) 0 9 no_ext (Some (be_list wr64)) (bytes 1 64)) by (vm_compute; reflexivity).
  unfold sendable. rewrite E.
  split; [left; reflexivity|]. split.
  { cbn [cmsg_ok]; unfold ext_ok, poison_same, data_ok; cbn [x_ids x_low x_user x_err no_ext]; splits; okay. }
  splits; try (intros H; discriminate H); try reflexivity.
  intros _. unfold addr_sendable. splits; [reflexivity|reflexivity|]. intros H. exfalso. apply H. reflexivity.
Qed.
Lemma snoop1_sendable : sendable snoop1.
Proof.
  assert (E : sent snoop1 = Snoop 601 0 1 3 (2 ^ 41 + 128) 1 no_ext) by (vm_compute; reflexivity).
  unfold sendable. rewrite E.
  split; [right; left; reflexivity|]. split.
  { cbn [cmsg_ok]; unfold ext_ok, poison_same, data_ok; cbn [x_ids x_low x_user x_err no_ext]; splits; okay. }
  splits; try (intros H; discriminate H); try reflexivity.
  intros _. unfold addr_sendable. splits; reflexivity.
Qed.
Example C68_case :
  match tlp_of Comp wr64 with
  | Ok (Some d) => (length d, slice 16 20 d, match extract_tlp Comp 2 d with
      | Some (Ok rs) => map (fun r => (head3 r, firstn 4 (r_data r), option_map (firstn 4) (r_be r), map (get (r_attr r)) [ReqOp; ReqAttr; NonSecure; QoS])) rs
      | _ => [] end)
  | _ => (0%nat, [], []) end =
  (100%nat, [13; 73; 96; 34; 101; 0; 2; 0; 0; 0; 0; 137; 187; 187; 187; 187; 187; 187; 187; 187],
   [((1, 2 ^ 41 + 128, 600, 3), [1; 2; 3; 4], Some [BE_ON; BE_ON; BE_OFF; BE_ON], [34; 101; 0; 9])]).
Proof. vm_compute. reflexivity. Qed.

(** with the link of C67: every message handed over arrives *)
Lemma tlp_words h t s c cs : Forall cmsg_ok cs -> CxsSpec.tlp_ok (tlp_layout h t s c cs).
Proof.
  intros O. unfold CxsSpec.tlp_ok, tlp_layout. change bytes_of_words with wire. rewrite app_length, wire_length.
  assert (B : (length (flat_map layout cs) mod 4 = 0)%nat).
  { induction O as [|m l O _ IH]; [reflexivity|]. cbn [flat_map]. rewrite app_length. pose proof (layout_length _ O) as L. clear -L IH. lia. }
  set (n := length (flat_map layout cs)) in *. clearbody n. destruct h; cbn [hdr_layout length]; clear -B; lia.
Qed.
Theorem C68_over_link h c flit es lates l ms : CxsSpec.cfg_ok c -> length flit = CxsModel.c_bytes c ->
  Forall sendable ms -> map (tlp_of h) ms = map (fun b => Ok (Some b)) (CxsSpec.submitted es) ->
  CxsSpec.no_reset es -> CxsModel.run c es (CxsModel.link0 flit) = Ok l ->
  (2 * CxsSpec.flits c (skipn (length (CxsModel.l_okd l)) (CxsSpec.submitted es)) + 36 <= length lates)%nat ->
  exists l' rs, CxsModel.run c (es ++ CxsSpec.running lates) (CxsModel.link0 flit) = Ok l' /\
    Forall2 (fun b r => extract_tlp h 2 b = Some (Ok [r])) (CxsModel.l_recv l') rs /\ Forall2 same ms rs.
Proof.
  intros C F S M N R L.
  assert (T : Forall CxsSpec.tlp_ok (CxsSpec.submitted es) /\
    exists rs, Forall2 (fun b r => extract_tlp h 2 b = Some (Ok [r])) (CxsSpec.submitted es) rs /\ Forall2 same ms rs).
  { clear -S M. revert M. generalize (CxsSpec.submitted es) as bs. induction S as [|m ms S _ IH]; intros [|b bs] M; try discriminate M.
    - split; [constructor|]. exists []. split; constructor.
    - cbn [map] in M. inversion M as [[E M']]. destruct (IH bs M') as (O & rs & R1 & R2).
      destruct (C68_round_trip h m S) as (d & r & T1 & T2 & T3). rewrite T1 in E. inversion E; subst d. split.
      + constructor; [|exact O]. rewrite (tlp_sent h m S) in T1. inversion T1. apply tlp_words. constructor; [apply S|constructor].
      + exists (r :: rs). split; constructor; assumption. }
  destruct T as (T & rs & R1 & R2). destruct (PropsCxs.C67_progress c flit es lates l C F N T R L) as (l' & A & B & _).
  exists l', rs. rewrite B. split; [exact A|]. split; assumption.
Qed.

(** No request or snoop with one of the address bits 39..32 set, or with an
    address from 2^52 on, can be sent: a setter asserts. *)
Theorem C68_address_refuted h m : In (m_attr m MsgType) [1; 2] ->
  m_addr m < 2 ^ 64 -> ~ addr_sendable (m_addr m) -> tlp_of h m = AssertFail.
Proof.
  intros T A B.
  assert (H : hi32 (m_addr m) = m_addr m / 2 ^ 32).
  { unfold hi32. rewrite N.shiftr_div_pow2. apply N.mod_small. apply N.div_lt_upper_bound; [discriminate|exact A]. }
  set (hi := hi32 (m_addr m)) in *.
  assert (P : 2 ^ 20 <= hi \/ 2 ^ 26 <= addr31_6 (m_addr m) \/ (2 ^ 4 <= hi /\ needs_ext0 (m_addr m) = true)).
  { destruct (N.le_gt_cases (2 ^ 52) (m_addr m)) as [L|L].
    { left. rewrite H. apply N.div_le_lower_bound; [discriminate|]. exact L. }
    right. assert (Z : hi mod 256 <> 0) by (intro Z; apply B; split; [exact L|rewrite <- H; exact Z]).
    destruct (N.lt_ge_cases hi (2 ^ 4)) as [S|S]; [left|right].
    - unfold addr31_6. rewrite N.shiftr_div_pow2. clear -H Z S. change u32 with 4294967296. change (2 ^ 6) with 64. change (2 ^ 26) with 67108864.
      change (2 ^ 32) with 4294967296 in H. change (2 ^ 4) with 16 in S. lia.
    - split; [exact S|]. unfold needs_ext0. fold hi. apply orb_true_iff. right. rewrite (get_field_div 0 8). change (2 ^ 0) with 1. rewrite N.div_1_r.
      apply negb_true_iff, N.eqb_neq. exact Z. }
  unfold tlp_of.
  assert (W : msg_words m = AssertFail); [|rewrite W; reflexivity].
  assert (X0 : 2 ^ 4 <= hi -> forall b, ext0_word b (m_addr m) = AssertFail).
  { intros L b. apply (fields_fail _ 20 4 hi); [right; right; left; reflexivity|exact L]. }
  assert (G : forall l (f : N -> res (list N)), (forall x, f x = AssertFail) -> rbind (fields l) f = AssertFail).
  { intros l f Hf. destruct (fields_cases l) as [[v E]|E]; rewrite E; cbn [rbind]; [apply Hf|reflexivity]. }
  unfold msg_words. cbn [In] in T. destruct T as [T|[T|[]]]; rewrite <- T.
  - change (1 =? T_Req) with true. cbv iota. enough (E : req_words m = AssertFail) by (rewrite E; reflexivity).
    unfold req_words. apply G. intros w0.
    destruct P as [P|[P|[P N0]]].
    + rewrite (fields_fail [(24, 8, _); (20, 4, 0); (0, 20, hi32 (m_addr m))] 0 20 hi) by (try exact P; right; right; left; reflexivity).
      destruct (needs_ext0 (m_addr m)).
      * rewrite X0 by (eapply N.le_trans; [|exact P]; discriminate). reflexivity.
      * cbn [rbind]. destruct (negb _); [|reflexivity]. destruct (ext1_allowed _); [|reflexivity].
        destruct (fields_cases [(28, 3, 1); (0, 6, N.land (m_addr m) 63)]) as [[v E]|E]; rewrite E; reflexivity.
    + rewrite (fields_fail [(6, 26, addr31_6 (m_addr m)); _; _; _] 6 26 (addr31_6 (m_addr m))) by (try exact P; left; reflexivity).
      assert (K : forall r : res (list N), r = AssertFail \/ (exists x, r = Ok x) -> forall f, (forall x, f x = AssertFail) -> rbind r f = (AssertFail : res (list N))).
      { intros r [E|[x E]] f Hf; rewrite E; [reflexivity|apply Hf]. }
      apply K; [|intros x0; apply K; [|intros x1; apply G; reflexivity]].
      * destruct (needs_ext0 _); [|right; eexists; reflexivity]. unfold ext0_word.
        match goal with |- context [fields ?l] => destruct (fields_cases l) as [[v E]|E]; rewrite E end; [right; eexists; reflexivity|left; reflexivity].
      * destruct (negb _); [|right; eexists; reflexivity]. destruct (ext1_allowed _); [|left; reflexivity].
        match goal with |- context [fields ?l] => destruct (fields_cases l) as [[v E]|E]; rewrite E end; [right; eexists; reflexivity|left; reflexivity].
    + rewrite N0, (X0 P). reflexivity.
  - change (2 =? T_Req) with false. change (2 =? T_SnpReq) with true. cbv iota. enough (E : snp_words m = AssertFail) by (rewrite E; reflexivity).
    unfold snp_words. apply G. intros w0.
    destruct P as [P|[P|[P N0]]].
    + rewrite (fields_fail [(20, 12, 0); (0, 20, hi32 (m_addr m))] 0 20 hi) by (try exact P; right; left; reflexivity).
      destruct (needs_ext0 (m_addr m)).
      * rewrite X0 by (eapply N.le_trans; [|exact P]; discriminate). reflexivity.
      * cbn [rbind]. destruct (_ =? 0); reflexivity.
    + rewrite (fields_fail [(6, 26, addr31_6 (m_addr m)); _; _; _] 6 26 (addr31_6 (m_addr m))) by (try exact P; left; reflexivity).
      assert (K : forall b : bool, (if b then rbind (fields [(20, 12, 0); (0, 20, hi32 (m_addr m))]) (fun _ => AssertFail) else AssertFail) = (AssertFail : res (list N))).
      { intros [|]; [apply G; reflexivity|reflexivity]. }
      destruct (needs_ext0 (m_addr m)); [|apply K]. unfold ext0_word.
      match goal with |- context [rmap _ (fields ?l)] => destruct (fields_cases l) as [[v E]|E]; rewrite E end; [|reflexivity]. unfold rmap. cbn [rbind]. apply K.
    + rewrite N0, (X0 P). reflexivity.
Qed.
Example C68_address_case :
  tlp_of Opt (mkMsg C_READ (2 ^ 32) [] None (get [(MsgType, 1); (ReqAttr, 96)]) (repeat 0 32)) = AssertFail /\
  exists d, tlp_of Opt (mkMsg C_READ (2 ^ 40) [] None (get [(MsgType, 1); (ReqAttr, 96)]) (repeat 0 32)) = Ok (Some d).
Proof. split; [reflexivity|]. eexists. vm_compute. reflexivity. Qed.

Definition over (h : hdr) (m : msg) : option (res (list rmsg)) :=
  match tlp_of h m with Ok (Some d) => extract_tlp h 2 d | Ok None => None
  | AssertFail => Some AssertFail | UB => Some UB | Unmodelled => Some Unmodelled end.
Definition seen {A} (f : rmsg -> A) (o : option (res (list rmsg))) : option (list A) :=
  match o with Some (Ok rs) => Some (map f rs) | _ => None end.
(** A partial write of 8 bytes arrives with its byte enables as the first data bytes. *)
Theorem C68_small_write_refuted :
  seen (fun r => (r_data r, option_map (firstn 8) (r_be r)))
    (over Opt (mkMsg C_WRITE 64 (bytes 1 8) (Some [BE_ON]) (get [(MsgType, 1); (ReqOp, 32); (ReqAttr, 48)]) (repeat 0 32))) =
  Some [([255; 0; 0; 0] ++ bytes 1 8, Some (repeat BE_ON 8))].
Proof. vm_compute. reflexivity. Qed.
(** A write of a number of bytes that is no multiple of 4 is read past its end. *)
Theorem C68_odd_write_refuted h be addr d a pay : (length d mod 4 <> 0)%nat -> length d <> 0%nat ->
  (a MsgType = 9 \/ a MsgType = 10) -> a TxnID < 4096 -> a RespAttr < 8 -> a RespOp < 8 ->
  tlp_of h (mkMsg C_WRITE addr d be a pay) = UB.
Proof.
  intros L _ T A1 A2 A3. unfold tlp_of, msg_words. cbn [m_attr].
  assert (E : rsp_words (mkMsg C_WRITE addr d be a pay) = UB).
  { unfold rsp_words. cbn [m_attr]. rewrite (fields_fit _ 32); [cbn [rbind]|].
    - unfold place_data. cbn [m_data is_wr m_cmd]. replace (N.of_nat (length d) mod 4 =? 0) with false by (symmetry; apply N.eqb_neq; clear -L; lia). reflexivity.
    - unfold common. cbn [app]. assert (B : a MsgType < 2 ^ 4) by (destruct T as [T|T]; rewrite T; reflexivity). fits. }
  rewrite E. destruct T as [T|T]; rewrite T; reflexivity.
Qed.
(** The cast of a snoop, the size of a payload and the poison bits of the upper half are lost. *)
Theorem C68_lost_attributes_refuted :
  seen (fun r => get (r_attr r) SnpCast)
    (over Opt (mkMsg C_IGNORE 64 [] None (get [(MsgType, 2); (SnpCast, 2)]) (repeat 0 32))) = Some [0] /\
  seen (fun r => (get (r_attr r) PayloadSz, firstn 3 (r_pay r)))
    (over Opt (mkMsg C_IGNORE 0 [] None (get [(MsgType, 3); (PayloadSz, 3)]) (bytes 1 32))) = Some [(0, [1; 2; 3])] /\
  seen (fun r => (get (r_attr r) Poison0, get (r_attr r) Poison1))
    (extract_tlp Opt 2 (tlp_layout Opt 0 0 0 [Response 9 0 0 0 (mkExt None false None (Some (0, 1, 255))) None []])) = Some [(1, 1)].
Proof. vm_compute. repeat split. Qed.
(** Credit and opcode of a miscellaneous message share a bit. *)
Theorem C68_misc_overlap_refuted :
  seen (fun r => (get (r_attr r) MiscCredit, get (r_attr r) MiscOp))
    (over Opt (mkMsg C_IGNORE 0 [] None (get [(MsgType, 3); (MiscCredit, 2); (MiscOp, 8)]) (repeat 0 32))) = Some [(3, 8)] /\
  seen (fun r => (get (r_attr r) MiscCredit, get (r_attr r) MiscOp))
    (over Opt (mkMsg C_IGNORE 0 [] None (get [(MsgType, 3); (MiscCredit, 1); (MiscOp, 2)]) (repeat 0 32))) = Some [(1, 10)].
Proof. vm_compute. split; reflexivity. Qed.
(** A payload that fills Payload is written past its end by the receiver. *)
Theorem C68_payload_refuted :
  map (fun n => match over Opt (mkMsg C_IGNORE 0 [] None (get [(MsgType, 3); (PayloadSz, n)]) (bytes 1 32)) with
                | Some UB => true | _ => false end) [29; 30; 31; 32] = [false; false; true; true].
Proof. vm_compute. reflexivity. Qed.

(** ** C69: any TLP *)
(** the length word of a message stays what it is *)
Definition len_is (v : N) (r : rmsg) : Prop := get (r_attr r) MsgLen = v.
Lemma len_set v kv r : (forall x, In x kv -> key_eqb (fst x) MsgLen = false) -> len_is v r -> len_is v (set_attr kv r).
Proof.
  intros H L. unfold len_is, set_attr in *. cbn [r_attr].
  assert (G : forall l, (forall x, In x l -> key_eqb (fst x) MsgLen = false) -> get (l ++ r_attr r) MsgLen = v).
  { induction l as [|[k x] l IH]; intros Hl; [exact L|]. cbn [app get].
    pose proof (Hl (k, x) (or_introl eq_refl)) as K. cbn [fst] in K. rewrite K.
    apply IH. intros y Hy. apply Hl. right. exact Hy. }
  apply G. intros x Hx. apply H. apply in_rev. exact Hx.
Qed.
Lemma len_or v x r : len_is v r -> len_is v (or_addr x r).
Proof. exact (fun H => H). Qed.
Ltac notlen := let x := fresh in let H := fresh in intros x H; cbn [In] in H; repeat (destruct H as [H|H]; [rewrite <- H; reflexivity|]); destruct H.
Lemma len_ext v w r : len_is v r -> len_is v (extension w r).
Proof.
  intros L. unfold extension. repeat match goal with |- context [if ?b then _ else _] => destruct b end;
    try exact L; try (apply len_set; [notlen|exact L]).
Qed.
Lemma len_exts v fuel b : forall w p r x, len_is v r -> extensions fuel b w p r = Ok x -> len_is v (snd x).
Proof.
  induction fuel as [|f IH]; intros w p r x L E; [discriminate E|]. cbn [extensions] in E.
  destruct (_ =? 1).
  - destruct (next b p) as [wp| | |]; try discriminate E. cbn [rbind] in E. eapply IH; [|exact E]. apply len_ext. exact L.
  - inversion E; subst. exact L.
Qed.
Lemma len_extract_exts v ad b w p r x : len_is v r -> extract_exts ad b w p r = Ok x -> len_is v (snd x).
Proof.
  intros L E. unfold extract_exts in E. destruct (extensions _ b w p r) as [[[w' p'] r']| | |] eqn:X; try discriminate E.
  cbn [rbind] in E. pose proof (len_exts v _ _ _ _ _ _ L X) as L'. cbn [snd] in L'.
  destruct ad; [|inversion E; subst; exact L']. destruct (next b p') as [wp| | |]; try discriminate E. inversion E; subst. exact L'.
Qed.
Ltac stepE E := match type of E with
  | rbind ?e _ = Ok _ => let X := fresh "X" in let x := fresh "x" in destruct e as [x| | |] eqn:X; try discriminate E; cbn [rbind fst snd] in E
  | rmap _ ?e = Ok _ => let X := fresh "X" in let x := fresh "x" in destruct e as [x| | |] eqn:X; try discriminate E; unfold rmap in E; cbn [rbind fst snd] in E
  end.
Lemma len_be v b p n r x : len_is v r -> parse_be b p n r = Ok x -> len_is v (snd x).
Proof. intros L E. unfold parse_be in E. destruct (Nat.leb _ _); [|discriminate E]. inversion E; subst. exact L. Qed.
Lemma len_data v b p n r x : len_is v r -> parse_data b p n r = Ok x -> len_is v x.
Proof. intros L E. unfold parse_data in E. destruct (_ && _); [|discriminate E]. inversion E; subst. exact L. Qed.
Lemma len_extract b tgt src c r : extract b tgt src c = Ok r ->
  (4 <= length b)%nat /\ len_is (get_field 22 5 (be_dec (slice 0 4 b))) r.
Proof.
  unfold extract. intros E. destruct (Nat.ltb_spec (length b) 4) as [|L4]; [discriminate E|]. split; [exact L4|].
  set (v := get_field 22 5 (be_dec (slice 0 4 b))).
  assert (NX : next b 0 = Ok (be_dec (slice 0 4 b), 4%nat)).
  { unfold next. replace (Nat.leb (0 + 4) (length b)) with true by (symmetry; apply Nat.leb_le; exact L4). reflexivity. }
  unfold new_msg in E. rewrite NX in E. unfold rmap in E. cbn [rbind fst] in E.
  set (r0 := set_attr _ _) in E.
  assert (L0 : len_is v r0) by reflexivity. clearbody r0.
  repeat match type of E with (if ?b then _ else _) = _ => destruct b end; try discriminate E.
  - unfold rx_req in E. rewrite NX in E. cbn [rbind] in E. stepE E. destruct x as [[w p] r1].
    assert (L1 : len_is v r1) by (eapply (len_extract_exts v) in X; [exact X|apply len_set; [notlen|exact L0]]).
    stepE E. assert (L2 : len_is v (snd x)).
    { destruct (_ =? Op_ReqChain); [inversion X0; subst; exact L1|]. stepE X0. inversion X0; subst. cbn [snd].
      apply len_or, len_set; [notlen|]. apply len_or, len_set; [notlen|exact L1]. }
    stepE E. assert (L3 : len_is v (snd x0)).
    { destruct (_ || _) in X1; [|inversion X1; subst; exact L2]. stepE X1. eapply len_be; [exact L2|exact X1]. }
    destruct (0 <? _); [|inversion E; subst; exact L3]. destruct (_ || _) in E; [|discriminate E].
    eapply len_data; [exact L3|exact E].
  - unfold rx_snp in E. rewrite NX in E. cbn [rbind] in E. stepE E. destruct x as [[w p] r1].
    assert (L1 : len_is v r1) by (eapply (len_extract_exts v) in X; [exact X|apply len_set; [notlen|exact L0]]).
    destruct (_ =? Op_SnpChain); [inversion E; subst; exact L1|]. stepE E. inversion E; subst. apply len_or, len_set; [notlen|exact L1].
  - unfold rx_rsp in E. rewrite NX in E. cbn [rbind] in E. stepE E. destruct x as [[w p] r1].
    assert (L1 : len_is v r1) by (eapply (len_extract_exts v) in X; [exact X|apply len_set; [notlen|exact L0]]).
    stepE E. assert (L2 : len_is v (snd x)).
    { destruct (64 <? _); [|inversion X0; subst; exact L1]. eapply len_be; [exact L1|exact X0]. }
    destruct (0 <? _); [|inversion E; subst; exact L2]. eapply len_data; [exact L2|exact E].
  - unfold rx_nop in E. rewrite NX in E. inversion E; subst. apply len_set; [notlen|exact L0].
  - unfold rx_crd in E. rewrite NX in E. cbn [rbind] in E. stepE E. inversion E; subst. apply len_set; [notlen|exact L0].
  - unfold rx_misc in E. rewrite NX in E. cbn [rbind] in E.
    assert (L1 : len_is v (set_attr [(MiscCredit, get_field 19 3 (be_dec (slice 0 4 b))); (MiscOp, get_field 16 4 (be_dec (slice 0 4 b)))] r0)) by (apply len_set; [notlen|exact L0]).
    destruct (0 <? _); [destruct (_ && _); [|discriminate E]|]; inversion E; subst; exact L1.
Qed.

(** The receiver returns, unless it comes to a message with length 0. *)
Lemma slice_skipn (d : list N) p n : slice 0 n (skipn p d) = slice p n d.
Proof. reflexivity. Qed.
Lemma messages_return d tgt src : forall fuel pos c prev, (length d + 4 <= N.to_nat pos + 4 * fuel)%nat -> (0 < fuel)%nat ->
  (forall q, In q prev -> get (r_attr q) MsgLen <> 0) ->
  messages fuel d pos tgt src c prev = None ->
  exists p c' r, (N.to_nat pos <= p)%nat /\ extract (skipn p d) tgt src c' = Ok r /\ get_field 22 5 (be_dec (slice p 4 d)) = 0.
Proof.
  induction fuel as [|f IH]; intros pos c prev L F P E; [lia|].
  cbn [messages] in E. destruct (N.ltb_spec pos (N.of_nat (length d))) as [H|H]; [|discriminate E].
  destruct (extract (skipn (N.to_nat pos) d) tgt src c) as [r| | |] eqn:X; try discriminate E. cbn [rbind] in E.
  destruct (len_extract _ _ _ _ _ X) as [_ Z]. rewrite slice_skipn in Z. unfold len_is in Z.
  destruct (N.eq_dec (get (r_attr r) MsgLen) 0) as [E0|E0].
  { exists (N.to_nat pos), c, r. split; [lia|]. split; [exact X|]. rewrite <- Z. exact E0. }
  destruct (setup_chain prev r) as [r'| | |] eqn:S; try discriminate E.
  assert (N0 : get (r_attr r') MsgLen <> 0).
  { unfold setup_chain in S. destruct (is_chain r); [|inversion S; subst; exact E0].
    destruct (find _ prev) as [q|] eqn:Q; [|discriminate S]. inversion S; subst. cbn [r_attr]. apply P. apply (find_some _ _ Q). }
  destruct (IH (pos + 4 * get (r_attr r') MsgLen) 0 (r' :: prev)) as (p & c' & r1 & A & B & D); [lia|lia| |exact E|].
  - intros q [Q|Q]; [subst q; exact N0|apply P; exact Q].
  - exists p, c', r1. split; [lia|]. split; assumption.
Qed.
Theorem C69_returns h d : extract_tlp h (S (length d)) d = None ->
  exists p tgt src c r, (hdr_size h <= p)%nat /\ extract (skipn p d) tgt src c = Ok r /\
    get_field 22 5 (be_dec (slice p 4 d)) = 0.
Proof.
  unfold extract_tlp. destruct (Nat.ltb_spec (length d) (hdr_size h)); [discriminate|]. intros E.
  apply messages_return in E; [|lia|lia|intros q []]. destruct E as (p & c & r & A & B & C).
  do 4 eexists. exists r. rewrite Nat2N.id in A. split; [exact A|]. split; [exact B|exact C].
Qed.

Example C69_case : let d := tlp_layout Comp 1 2 3 good in
  seen rx_type (extract_tlp Comp (S (length d)) d) = Some [1; 9; 11; 11; 3; 1] /\
  seen rx_type (extract_tlp Comp 5 (firstn 16 d)) = Some [].
Proof. vm_compute. split; reflexivity. Qed.
(** With such a message it never returns: a NOP of length 0, for example. *)
Definition nop0 : list N := wire [place [(30, 1); (20, 7); (0, 1)]; place [(27, 11)]].
Theorem C69_zero_length_refuted : forall fuel, extract_tlp Opt fuel nop0 = None.
Proof.
  intros fuel. unfold extract_tlp. change (Nat.ltb (length nop0) (hdr_size Opt)) with false. cbv iota zeta.
  generalize (get_field 14 6 (word_at nop0 0)) as tgt, (get_field 8 6 (word_at nop0 0)) as src, (get_field 24 6 (word_at nop0 0)) as c.
  generalize (@nil rmsg) as prev. induction fuel as [|f IH]; intros prev tgt src c; [reflexivity|].
  cbn [messages]. change (N.of_nat (hdr_size Opt) <? N.of_nat (length nop0)) with true. cbv iota.
  assert (E : exists r, extract (skipn (N.to_nat (N.of_nat (hdr_size Opt))) nop0) tgt src c = Ok r /\ is_chain r = false /\ get (r_attr r) MsgLen = 0).
  { eexists. split; [reflexivity|]. split; reflexivity. }
  destruct E as (r & E & C & L). rewrite E. cbn [rbind]. unfold setup_chain. rewrite C. rewrite L. apply IH.
Qed.

(** A chained request has one header word and data; it continues the previous
    request at the next cache line.  The receiver drops the first four bytes
    of its data and goes on at the wrong place. *)
Definition wfull : cmsg := Request 5 33 96 4096 1 0 no_ext None (bytes 1 64).
Definition chain_req (d : list N) : list N := wire [place [(27, 1); (22, 17); (10, 6); (0, 240)]] ++ d.
Definition with_body (body : list N) : list N :=
  wire (hdr_layout Opt 1 2 0 (N.of_nat (length body) / 4)) ++ body.
Theorem C69_request_chain_refuted :
  seen (fun r => (r_cmd r, r_addr r, r_data r))
    (extract_tlp Opt 9 (with_body (layout wfull ++ chain_req (bytes 101 64)))) =
    Some [(C_WRITE, 4096, bytes 1 64); (C_WRITE, 4160, bytes 105 60)] /\
  seen (fun r => (rx_type r, r_addr r))
    (extract_tlp Opt 9 (with_body (layout wfull ++ chain_req (bytes 101 64) ++ layout (Snoop 9 0 0 3 64 1 no_ext)))) = None /\
  seen (fun r => (rx_type r, r_addr r))
    (extract_tlp Opt 9 (with_body (layout wfull ++ chain_req (bytes 101 64) ++ layout Nop ++ layout Nop ++ layout Nop))) =
    Some [(1, 4096); (1, 4160); (11, 0)].
Proof. vm_compute. repeat split. Qed.
(** A chained snoop has one word only: at the end of a TLP the receiver reads
    past it; else the messages behind it are lost. *)
Definition snp : cmsg := Snoop 9 0 0 3 8192 1 no_ext.
Definition chain_snp : list N := wire [place [(27, 2); (22, 1); (10, 10); (0, 7)]].
Theorem C69_snoop_chain_refuted :
  extract_tlp Opt 9 (with_body (layout snp ++ chain_snp)) = Some UB /\
  seen (fun r => (rx_type r, r_addr r, get (r_attr r) TxnID))
    (extract_tlp Opt 9 (with_body (layout snp ++ chain_snp ++ layout Nop ++ layout (Response 9 11 0 0 no_ext None [])))) =
    Some [(2, 8192, 9); (2, 8256, 9)].
Proof. vm_compute. split; reflexivity. Qed.

Print Assumptions C68_receiver.
Print Assumptions C68_sender.
Print Assumptions C68_round_trip.
Print Assumptions C68_over_link.
Print Assumptions C68_address_refuted.
Print Assumptions C68_small_write_refuted.
Print Assumptions C68_odd_write_refuted.
Print Assumptions C68_lost_attributes_refuted.
Print Assumptions C68_misc_overlap_refuted.
Print Assumptions C68_payload_refuted.
Print Assumptions C69_returns.
Print Assumptions C69_zero_length_refuted.
Print Assumptions C69_request_chain_refuted.
Print Assumptions C69_snoop_chain_refuted.
