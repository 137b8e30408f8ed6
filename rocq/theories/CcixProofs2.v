(** The other messages, whole TLPs and the sender. *)
From Verif Require Import Base BaseFacts TlmModel TlpModel TlpProofs CxsProofs CcixModel CcixSpec CcixProofs.
Open Scope N_scope.

Lemma rx_rsp_spec ty txn attr op x be d rest tgt src credit :
  let c := Response ty txn attr op x be d in cmsg_ok c ->
  exists r, rx_rsp (layout c ++ rest) (base c tgt src credit) = Ok r /\ received c tgt src credit r.
Proof.
  intros c O. destruct (extract_start c rest tgt src credit O) as (_ & _ & NW & _ & _).
  unfold rx_rsp. rewrite NW. cbn [rbind].
  pose proof (hlist_fit c O) as F. pose proof (hlist_eq c) as E.
  rewrite (gf_in _ 32 10 12 txn _ E F ltac:(inl)), (gf_in _ 32 4 3 attr _ E F ltac:(inl)), (gf_in _ 32 0 3 op _ E F ltac:(inl)).
  pose proof (gf_in _ 32 31 1 (some_ext (ext_fields 0 x)) _ E F ltac:(inl)) as X31.
  pose proof (tail_size_spec c) as TS. specialize (TS) with (1 := O).
  pose proof O as O'. cbn [cmsg_ok] in O'. destruct O' as (O0 & O1 & O2 & O3 & O6 & O7 & (D1 & D2 & D3) & O9).
  destruct (ext_bounds 0 x O6) as (XB & _).
  set (r0 := set_attr [(TxnID, txn); (RespAttr, attr); (RespOp, op)] (base c tgt src credit)).
  set (b := layout c ++ rest).
  assert (B : b = wire ([hword c] ++ ext_words (ext_fields 0 x) ++ []) ++ (opt_be be ++ d) ++ rest).
  { subst b. rewrite layout_hword, app_nil_r. reflexivity. }
  destruct (exts_run (ext_fields 0 x) [hword c] (hword c) r0 (S (length b)) [] ((opt_be be ++ d) ++ rest) 4%nat) as (w' & R).
  { rewrite B, app_length, wire_length, !app_length, ext_words_length. lia. }
  { reflexivity. }
  { exact X31. }
  { exact XB. }
  rewrite <- B in R. unfold extract_exts. rewrite R. cbn [rbind]. clear R w'.
  set (fs := ext_fields 0 x) in *.
  destruct (ext_fold 0 x r0 O6 O7) as (X1 & X2 & X3 & X4 & X5 & X6). fold fs in X1, X2, X3, X4, X5, X6.
  set (r2 := fold_left (fun r f => ext_eff f r) fs r0) in *.
  set (p := (4 * (length [hword c] + length fs))%nat).
  rewrite app_nil_r in B. rewrite <- !app_assoc in B. cbn [app] in B.
  assert (P : p = length (wire (hword c :: ext_words fs))).
  { rewrite wire_length. subst p. cbn [length]. rewrite ext_words_length. lia. }
  assert (PM : (p mod 4 = 0)%nat) by (rewrite P, wire_length; lia).
  assert (PL : (4 * (1 + length (more c)) = p)%nat).
  { rewrite P, wire_length. reflexivity. }
  assert (G2 : forall k, get (r_attr r2) k = attr_of c tgt src credit k).
  { intro k. specialize (X6 k). rewrite X6. destruct k; unfold ext_get; cbn -[msg_len]; try reflexivity. }
  assert (A2' : r_addr r2 = 0) by (rewrite X5; reflexivity).
  assert (GL : get (r_attr r2) MsgLen = msg_len c) by exact (G2 MsgLen).
  assert (R2 : r_cmd r2 = C_IGNORE /\ r_data r2 = repeat 0 64 /\ r_be r2 = None /\ r_pay r2 = repeat 0 32)
    by (rewrite X1, X2, X3, X4; repeat split).
  destruct R2 as (C1 & C2 & C3 & C4). clearbody r2 p.
  destruct be as [l|]; cbn [opt_be app] in *.
  - destruct O9 as (L9 & M9).
    assert (LB : length (be_bytes l) = 8%nat) by (rewrite be_bytes_length, L9; reflexivity).
    rewrite (TS r2 p GL 72%nat) by (rewrite PL; cbn [tail c opt_be]; rewrite app_length; lia).
    change (64 <? N.of_nat 72) with true. cbv iota. cbn [rbind]. rewrite B.
    rewrite (parse_be_spec _ l d rest r2 64 p P ltac:(rewrite <- P; exact PM) L9 ltac:(auto)).
    cbn [rbind fst snd]. set (r3 := mkRmsg _ _ _ _ _ _).
    assert (G3 : get (r_attr r3) MsgLen = msg_len c) by exact GL.
    rewrite (TS r3 _ G3 (length d)) by (rewrite PL; cbn [tail c opt_be]; rewrite app_length, <- P; lia).
    replace (0 <? N.of_nat (length d)) with true by (symmetry; apply N.ltb_lt; lia).
    rewrite app_assoc.
    rewrite (parse_data_spec _ d rest r3 _ (N.of_nat (length d))) by (try lia; rewrite app_length; reflexivity).
    assert (Hd : d <> []) by (destruct d; [discriminate M9|discriminate]).
    eexists. split; [reflexivity|]. unfold received. cbn [r_cmd r_addr r_data r_be r_attr r_pay r3 data_of be_of addr_of pay_of c option_map app length].
    repeat split; try assumption; try (destruct d; [contradiction|reflexivity]).
  - rewrite (TS r2 _ GL (length d)) by (rewrite PL; cbn [tail c opt_be app]; reflexivity).
    replace (64 <? N.of_nat (length d)) with false by (symmetry; apply N.ltb_ge; lia).
    cbn [rbind fst snd].
    rewrite (TS r2 _ GL (length d)) by (rewrite PL; cbn [tail c opt_be app]; reflexivity).
    destruct d as [|d0 d'].
    + cbn [length N.of_nat N.ltb N.compare]. exists r2. split; [reflexivity|].
      unfold received. cbn [data_of be_of addr_of pay_of c option_map app length]. repeat split; assumption.
    + replace (0 <? N.of_nat (length (d0 :: d'))) with true by (symmetry; apply N.ltb_lt; cbn [length]; lia).
      rewrite B. rewrite (parse_data_spec _ (d0 :: d') rest r2 p _ P eq_refl D3).
      eexists. split; [reflexivity|]. unfold received. cbn [r_cmd r_addr r_data r_be r_attr r_pay data_of be_of addr_of pay_of c option_map app].
      repeat split; assumption.
Qed.

Lemma rx_snp_spec txn cast dr op addr ns x rest tgt src credit :
  let c := Snoop txn cast dr op addr ns x in cmsg_ok c ->
  exists r, rx_snp (layout c ++ rest) (base c tgt src credit) = Ok r /\ received c tgt src credit r.
Proof.
  intros c O. destruct (extract_start c rest tgt src credit O) as (_ & _ & NW & _ & _).
  unfold rx_snp. rewrite NW. cbn [rbind].
  pose proof (hlist_fit c O) as F. pose proof (hlist_eq c) as E.
  rewrite (gf_in _ 32 10 12 txn _ E F ltac:(inl)), (gf_in _ 32 4 1 dr _ E F ltac:(inl)), (gf_in _ 32 0 4 op _ E F ltac:(inl)).
  pose proof (gf_in _ 32 31 1 (some_ext (ext_fields addr x)) _ E F ltac:(inl)) as X31.
  pose proof O as O'. cbn [cmsg_ok] in O'. destruct O' as (O1 & O2 & O3 & O4 & O5 & O8 & O6 & O7).
  replace (op =? Op_SnpChain) with false by (symmetry; apply N.eqb_neq; exact O5).
  destruct (ext_bounds addr x O6) as (XB & _).
  set (w1 := place [(0, addr / 2 ^ 32 mod 2 ^ 20)]).
  set (w2 := place [(6, addr / 64 mod 2 ^ 26); (4, ns)]).
  destruct (addr_parts addr) as [A1 A2].
  assert (F1 : fit 32 [(0, 20, addr / 2 ^ 32 mod 2 ^ 20)]) by fits.
  assert (F2 : fit 32 [(6, 26, addr / 64 mod 2 ^ 26); (4, 1, ns)]) by fits.
  assert (E1 : w1 = place (strip [(0, 20, addr / 2 ^ 32 mod 2 ^ 20)])) by reflexivity.
  assert (E2 : w2 = place (strip [(6, 26, addr / 64 mod 2 ^ 26); (4, 1, ns)])) by reflexivity.
  assert (W1 : w1 < u32) by (apply (fit_bound _ 32 F1)).
  assert (W2 : w2 < u32) by (apply (fit_bound _ 32 F2)).
  set (r0 := set_attr [(TxnID, txn); (DataRet, dr); (SnpOp, op)] (base c tgt src credit)).
  set (b := layout c ++ rest).
  assert (B : b = wire ([hword c] ++ ext_words (ext_fields addr x) ++ [w1; w2]) ++ rest).
  { subst b. rewrite layout_hword. reflexivity. }
  destruct (exts_run (ext_fields addr x) [hword c] (hword c) r0 (S (length b)) [w1; w2] rest 4%nat) as (w' & R).
  { rewrite B, app_length, wire_length, !app_length, ext_words_length. lia. }
  { reflexivity. }
  { exact X31. }
  { exact XB. }
  rewrite <- B in R. unfold extract_exts. rewrite R. cbn [rbind]. clear R w'.
  set (fs := ext_fields addr x) in *.
  destruct (ext_fold addr x r0 O6 O7) as (X1 & X2 & X3 & X4 & X5 & X6). fold fs in X1, X2, X3, X4, X5, X6.
  set (r1 := fold_left (fun r f => ext_eff f r) fs r0) in *.
  pose proof (next_word ([hword c] ++ ext_words fs) w1 [w2] rest (4 * (length [hword c] + length fs)) ltac:(rewrite app_length, ext_words_length; reflexivity) W1) as N1.
  pose proof (next_word ([hword c] ++ ext_words fs ++ [w1]) w2 [] rest (4 * S (length ([hword c] ++ ext_words fs))) ltac:(rewrite !app_length; cbn [length]; lia) W2) as N2.
  repeat rewrite <- app_assoc in N1. repeat rewrite <- app_assoc in N2. repeat rewrite <- app_assoc in B.
  cbn [app] in N1, N2, B. repeat rewrite <- app_assoc in N2. rewrite <- B in N1, N2.
  change (length [hword c]) with 1%nat in N1 |- *. rewrite N1. unfold rmap. cbn [rbind fst snd]. rewrite N2. cbn [rbind fst snd].
  rewrite (gf_in _ 32 0 20 _ w1 E1 F1 ltac:(inl)), (gf_in _ 32 6 26 _ w2 E2 F2 ltac:(inl)), (gf_in _ 32 4 1 _ w2 E2 F2 ltac:(inl)).
  eexists. split; [reflexivity|]. unfold received.
  cbn [r_cmd r_addr r_data r_be r_attr r_pay or_addr set_attr data_of be_of addr_of pay_of c option_map app length Nat.sub].
  rewrite X1, X2, X3, X4, X5. repeat split.
  - cbn [r_addr r0 base set_attr]. apply addr_join. exact (proj1 O6).
  - intro k. specialize (X6 k). destruct k; cbn -[r1]; try exact eq_refl; rewrite X6; unfold ext_get; cbn -[msg_len]; reflexivity.
Qed.

Lemma rx_crd_spec op d q m s rest tgt src credit :
  let c := Credits op d q m s in cmsg_ok c ->
  exists r, rx_crd (layout c ++ rest) (base c tgt src credit) = Ok r /\ received c tgt src credit r.
Proof.
  intros c O. destruct (extract_start c rest tgt src credit O) as (_ & _ & NW & _ & _).
  unfold rx_crd. rewrite NW. cbn [rbind].
  pose proof (msg_len_lt c O) as [ML _]. pose proof O as (O1 & O2 & O3 & O4 & O5).
  set (L := [(27, 4, 11); (22, 5, msg_len c); (16, 4, op); (8, 8, d); (0, 8, q)]).
  assert (F : fit 32 L) by (subst L; fits; destruct O1; subst; reflexivity).
  assert (E : hword c = place (strip L)) by reflexivity.
  rewrite (gf_in L 32 16 4 op _ E F ltac:(inl)), (gf_in L 32 8 8 d _ E F ltac:(inl)), (gf_in L 32 0 8 q _ E F ltac:(inl)).
  set (w := place [(8, m); (0, s)]).
  assert (F1 : fit 32 [(8, 8, m); (0, 8, s)]) by fits.
  assert (E1 : w = place (strip [(8, 8, m); (0, 8, s)])) by reflexivity.
  pose proof (next_word [hword c] w [] rest 4%nat eq_refl (fit_bound _ 32 F1)) as N1.
  rewrite layout_hword. cbn [tail c app more]. fold c. fold w. cbn [app] in N1. rewrite N1. unfold rmap. cbn [rbind fst].
  rewrite (gf_in _ 32 8 8 m w E1 F1 ltac:(inl)), (gf_in _ 32 0 8 s w E1 F1 ltac:(inl)).
  eexists. split; [reflexivity|]. unfold received. repeat split. intro k. destruct k; reflexivity.
Qed.
Lemma rx_nop_spec rest tgt src credit :
  exists r, rx_nop (layout Nop ++ rest) (base Nop tgt src credit) = Ok r /\ received Nop tgt src credit r.
Proof.
  destruct (extract_start Nop rest tgt src credit I) as (_ & _ & NW & _ & _).
  unfold rx_nop. rewrite NW. unfold rmap. cbn [rbind].
  eexists. split; [reflexivity|]. unfold received. repeat split. intro k. destruct k; reflexivity.
Qed.
Lemma firstn2 (l : list N) : l ++ repeat 0 (32 - length l) =
  if Nat.ltb (length l) 2 then [nth 0 l 0; nth 1 l 0] ++ repeat 0 30
  else [nth 0 l 0; nth 1 l 0] ++ skipn 2 l ++ repeat 0 (32 - length l).
Proof. destruct l as [|a [|b l]]; reflexivity. Qed.
Lemma rx_misc_spec cr op p rest tgt src credit :
  let c := Misc cr op p in cmsg_ok c ->
  exists r, rx_misc (layout c ++ rest) (base c tgt src credit) = Ok r /\ received c tgt src credit r.
Proof.
  intros c O. destruct (extract_start c rest tgt src credit O) as (_ & _ & NW & _ & _).
  unfold rx_misc. rewrite NW. cbn [rbind].
  pose proof (hlist_fit c O) as F. pose proof (hlist_eq c) as E.
  rewrite (gf_in _ 32 19 3 cr _ E F ltac:(inl)), (gf_in _ 32 8 8 _ _ E F ltac:(inl)), (gf_in _ 32 0 8 _ _ E F ltac:(inl)).
  pose proof (msg_len_lt c O) as [ML _]. pose proof O as (O1 & O2 & O3 & O4 & O5).
  assert (G : get_field 16 4 (hword c) = op).
  { set (L := [(27, 4, 3); (22, 5, msg_len c); (20, 2, cr / 2); (16, 4, op); (8, 8, nth 0 p 0); (0, 8, nth 1 p 0)]).
    apply (gf_in L 32 16 4 op).
    - unfold hword. cbn [head c fst snd app place strip L map].
      change (2 ^ 19) with 524288. change (2 ^ 20) with 1048576. change (2 ^ 16) with 65536.
      remember (msg_len c) as n. clear -O1 O2 O3. enough (cr * 524288 + op mod 8 * 65536 = cr / 2 * 1048576 + op * 65536) by lia. lia.
    - subst L. fits; try (apply bytes_nth; exact O4). clear -O1. apply N.div_lt_upper_bound; [discriminate|exact O1].
    - inl. }
  rewrite G. set (r0 := set_attr [(MiscCredit, cr); (MiscOp, op)] (base c tgt src credit)).
  assert (TS : tail_size r0 4 = N.of_nat (length (pad4 (skipn 2 p)))).
  { apply (tail_size_spec c r0 4 O eq_refl). reflexivity. }
  rewrite TS. pose proof (pad4_length (skipn 2 p)) as [P1 P2]. rewrite skipn_length in P2.
  assert (G0 : forall k, get (r_attr r0) k = attr_of c tgt src credit k) by (intro k; destruct k; reflexivity).
  destruct (Nat.le_gt_cases (length p) 2) as [S|S].
  - assert (Z : skipn 2 p = []) by (apply skipn_all2; exact S).
    rewrite Z. cbn [pad4 length app repeat Nat.modulo Nat.sub N.of_nat N.ltb N.compare].
    eexists. split; [reflexivity|]. unfold received. repeat split; try exact G0.
    cbn [r_pay pay_of c]. clear -S. destruct p as [|a [|b [|? ?]]]; try reflexivity. cbn in S. lia.
  - assert (NZ : (0 < length (pad4 (skipn 2 p)))%nat).
    { unfold pad4. rewrite app_length, skipn_length. lia. }
    replace (0 <? N.of_nat (length (pad4 (skipn 2 p)))) with true by (symmetry; apply N.ltb_lt; lia).
    rewrite Nat2N.id. rewrite layout_hword. cbn [tail c more app].
    assert (W4 : length (wire [hword c]) = 4%nat) by apply wire_length.
    replace (_ && _) with true. 2:{ symmetry. apply andb_true_iff. split; [apply N.leb_le; clear -P1 P2 O5; lia|apply Nat.leb_le; rewrite !app_length; fold c; rewrite W4; lia]. }
    eexists. split; [reflexivity|]. unfold received. repeat split; try exact G0.
    cbn [r_pay pay_of c]. fold c.
    replace (slice 4 (length (pad4 (skipn 2 p))) (wire [hword c] ++ pad4 (skipn 2 p) ++ rest)) with (pad4 (skipn 2 p)).
    2:{ unfold slice. rewrite skipn_app_len by exact W4. rewrite firstn_app_exact. reflexivity. }
    destruct p as [|a [|b p']]; [cbn in S; lia|cbn in S; lia|]. cbn [skipn nth app].
    f_equal. f_equal. unfold pad4. rewrite <- app_assoc. cbn [app]. rewrite <- repeat_app.
    f_equal. f_equal. cbn [length]. rewrite app_length, repeat_length. cbn [length] in O5.
    remember (length p') as n. clear -O5. lia.
Qed.

Lemma extract_spec c rest tgt src credit : cmsg_ok c ->
  exists r, extract (layout c ++ rest) tgt src credit = Ok r /\ received c tgt src credit r.
Proof.
  intros O. destruct (extract_start c rest tgt src credit O) as (S1 & S2 & _ & S4 & S5).
  unfold extract. rewrite S1, S4. cbn [rbind]. rewrite S2, S5.
  destruct c as [txn op attr addr ns qos x be d|ty txn attr op x be d|txn cast dr op addr ns x|op d q m s| |cr op p]; cbn [type_of].
  - cbn [N.eqb Pos.eqb T_Req]. apply rx_req_spec. exact O.
  - destruct (rx_rsp_spec ty txn attr op x be d rest tgt src credit O) as (r & R & V).
    pose proof O as ([T|T] & _); subst ty; exists r; (split; [exact R|exact V]).
  - cbn [N.eqb Pos.eqb T_Req T_SnpReq]. apply rx_snp_spec. exact O.
  - change (11 =? T_Req) with false. change (11 =? T_SnpReq) with false. change (11 =? T_Resp) with false. change (11 =? T_SnpResp) with false.
    change (11 =? T_MiscUnCredited) with true. cbn [orb].
    pose proof (gf_in _ 32 16 3 op _ (hlist_eq _) (hlist_fit _ O) ltac:(inl)) as G. cbn [hlist] in G. rewrite G.
    destruct O as [[T|T] O']; subst op; cbn [N.eqb Pos.eqb op_in existsb orb]; apply rx_crd_spec; (split; [auto|exact O']).
  - change (11 =? T_Req) with false. change (11 =? T_SnpReq) with false. change (11 =? T_Resp) with false. change (11 =? T_SnpResp) with false.
    change (11 =? T_MiscUnCredited) with true. cbn [orb].
    change (get_field 16 3 (hword Nop) =? 0) with true. apply rx_nop_spec.
  - change (3 =? T_Req) with false. change (3 =? T_SnpReq) with false. change (3 =? T_Resp) with false. change (3 =? T_SnpResp) with false.
    change (3 =? T_MiscUnCredited) with false. change (3 =? T_MiscCredited) with true. cbn [orb]. apply rx_misc_spec. exact O.
Qed.

(** ** Whole TLPs *)
Lemma not_chain c tgt src credit r : cmsg_ok c -> received c tgt src credit r -> is_chain r = false.
Proof.
  intros O (_ & _ & _ & _ & G & _). unfold is_chain, rx_type. rewrite (G MsgType), (G ReqOp), (G SnpOp).
  destruct c as [txn op attr addr ns qos x be d|ty txn attr op x be d|txn cast dr op addr ns x|op d q m s| |cr op p]; try reflexivity; cbn [attr_of type_of].
  - destruct O as (_ & O & _). replace (op =? Op_ReqChain) with false by (symmetry; apply N.eqb_neq; unfold Op_ReqChain; lia). reflexivity.
  - destruct O as ([T|T] & _); subst ty; reflexivity.
  - destruct O as (_ & _ & _ & _ & O & _). replace (op =? Op_SnpChain) with false by (symmetry; apply N.eqb_neq; exact O). reflexivity.
Qed.
Lemma messages_spec cs : forall fuel pre pos tgt src credit prev, Forall cmsg_ok cs -> (length cs < fuel)%nat ->
  pos = N.of_nat (length pre) ->
  exists rs, messages fuel (pre ++ flat_map layout cs) pos tgt src credit prev = Some (Ok (rev prev ++ rs)) /\
    all_received cs tgt src credit rs.
Proof.
  induction cs as [|c cs IH]; intros fuel pre pos tgt src credit prev O F P; (destruct fuel as [|fuel]; [cbn in F; lia|]).
  - exists []. cbn [flat_map messages]. rewrite app_nil_r, P, N.ltb_irrefl, app_nil_r. split; [reflexivity|exact I].
  - inversion O as [|? ? O1 O2]; subst. cbn [flat_map messages].
    pose proof (layout_length c O1) as L. pose proof (msg_len_lt c O1) as [_ L0].
    replace (_ <? _) with true by (symmetry; apply N.ltb_lt; rewrite !app_length; lia).
    rewrite Nat2N.id, skipn_app_exact.
    destruct (extract_spec c (flat_map layout cs) tgt src credit O1) as (r & R & V). rewrite R. cbn [rbind].
    unfold setup_chain. rewrite (not_chain c tgt src credit r O1 V).
    pose proof V as (_ & _ & _ & _ & G & _). rewrite (G MsgLen). cbn [attr_of].
    replace (attr_of c tgt src credit MsgLen) with (msg_len c) by (destruct c; reflexivity).
    destruct (IH fuel (pre ++ layout c) (N.of_nat (length pre) + 4 * msg_len c) tgt src 0 (r :: prev) O2) as (rs & M & A).
    + cbn [length] in F. lia.
    + rewrite app_length. lia.
    + rewrite <- app_assoc in M. rewrite M. exists (r :: rs). cbn [rev]. rewrite <- app_assoc. split; [reflexivity|]. split; assumption.
Qed.
Definition hdr_max (h : hdr) : N := match h with Comp => 2 ^ 10 | Opt => 2 ^ 7 end.
Lemma word_at_app pre w post rest i : i = length pre -> w < u32 -> word_at (wire (pre ++ w :: post) ++ rest) i = w.
Proof.
  intros -> W. pose proof (next_word pre w post rest _ eq_refl W) as NW. unfold next in NW.
  destruct (Nat.leb _ _); [|discriminate NW]. unfold word_at. apply Ok_pair in NW. symmetry. exact (proj1 NW).
Qed.
Definition hfields (h : hdr) (tgt src credit len : N) : list (N * N * N) :=
  match h with
  | Opt => [(30, 1, 1); (24, 6, credit); (20, 3, 7); (14, 6, tgt); (8, 6, src); (0, 7, len)]
  | Comp => [(24, 6, credit); (14, 6, tgt); (8, 6, src)]
  end.
Lemma extract_tlp_spec h tgt src credit cs fuel : tgt < 64 -> src < 64 -> credit < 64 -> Forall cmsg_ok cs ->
  N.of_nat (length (flat_map layout cs)) / 4 < hdr_max h -> (length cs < fuel)%nat ->
  exists rs, extract_tlp h fuel (tlp_layout h tgt src credit cs) = Some (Ok rs) /\ all_received cs tgt src credit rs.
Proof.
  intros T S C O M F. unfold extract_tlp, tlp_layout. change bytes_of_words with wire.
  set (len := N.of_nat (length (flat_map layout cs)) / 4) in *.
  set (hw := hdr_layout h tgt src credit len).
  assert (HL : length (wire hw) = hdr_size h) by (rewrite wire_length; subst hw; destruct h; reflexivity).
  replace (Nat.ltb _ _) with false by (symmetry; apply Nat.ltb_ge; rewrite app_length, HL; lia).
  assert (HF : fit 32 (hfields h tgt src credit len)) by (destruct h; cbn [hfields hdr_max] in *; fits).
  assert (HW : (match h with Comp => word_at (wire hw ++ flat_map layout cs) 3 | Opt => word_at (wire hw ++ flat_map layout cs) 0 end)
               = place (strip (hfields h tgt src credit len))).
  { pose proof (fit_bound _ 32 HF) as B. destruct h.
    - apply (word_at_app [_; _; _] _ [] _ 3 eq_refl B).
    - apply (word_at_app [] _ [] _ 0 eq_refl B). }
  rewrite HW.
  assert (I1 : In (14, 6, tgt) (hfields h tgt src credit len)) by (clear; destruct h; inl).
  assert (I2 : In (8, 6, src) (hfields h tgt src credit len)) by (clear; destruct h; inl).
  assert (I3 : In (24, 6, credit) (hfields h tgt src credit len)) by (clear; destruct h; inl).
  rewrite (gf_in _ 32 14 6 tgt _ eq_refl HF I1), (gf_in _ 32 8 6 src _ eq_refl HF I2), (gf_in _ 32 24 6 credit _ eq_refl HF I3).
  destruct (messages_spec cs fuel (wire hw) (N.of_nat (hdr_size h)) tgt src credit [] O F ltac:(rewrite HL; reflexivity)) as (rs & R & A).
  exists rs. split; [exact R|exact A].
Qed.

(** ** The sender *)
Lemma finish_spec a b tl n : b < 2 ^ 22 -> n = N.of_nat (S (length tl)) -> n < 2 ^ 5 ->
  finish (a * 2 ^ 27 + b :: tl) = Ok (a * 2 ^ 27 + (n * 2 ^ 22 + b) :: tl).
Proof.
  intros B E L. unfold finish. cbn [length]. rewrite <- E. unfold set_field.
  replace (n <? 2 ^ 5) with true by (symmetry; apply N.ltb_lt; exact L). unfold rmap. cbn [rbind]. f_equal. f_equal.
  assert (B' : b < 2 ^ 27) by (eapply N.lt_trans; [exact B|reflexivity]).
  rewrite <- (lor_shift a b 27) by exact B'. rewrite <- N.lor_assoc, (N.lor_comm b), (lor_shift n b 22) by exact B.
  apply lor_shift. change (2 ^ 5) with 32 in L. change (2 ^ 22) with 4194304 in *. change (2 ^ 27) with 134217728. lia.
Qed.
Lemma fields_zero s w l : fields ((s, w, 0) :: l) = fields l.
Proof.
  cbn [fields]. unfold set_field. replace (0 <? 2 ^ w) with true by (symmetry; apply N.ltb_lt; apply pow_pos).
  cbn [rbind]. rewrite N.shiftl_0_l. destruct (fields l); reflexivity.
Qed.
Lemma fields_app_zero a s w l : fields (a ++ (s, w, 0) :: l) = fields (a ++ l).
Proof. induction a as [|[[s0 w0] v0] a IH]; cbn [app]; [apply fields_zero|]. cbn [fields]. rewrite IH. reflexivity. Qed.
Lemma common_fields e t l : e < 2 ^ 1 -> t < 2 ^ 4 -> fit 22 l ->
  fields ([(31, 1, e); (27, 4, t); (22, 5, 0)] ++ l) = Ok ((e * 16 + t) * 2 ^ 27 + place (strip l)) /\ place (strip l) < 2 ^ 22.
Proof.
  intros E T F. cbn [app]. split; [|apply (fit_bound l 22 F)].
  rewrite (fields_fit _ 32) by (cbn [fit]; repeat split; try assumption; try (vm_compute; discriminate); vm_compute; reflexivity).
  f_equal. cbn [strip map fst snd place]. fold (strip l). change (2 ^ 31) with (16 * 2 ^ 27). rewrite N.mul_0_l. lia.
Qed.
Lemma wire_layout c a b : hword c = a * 2 ^ 27 + (msg_len c * 2 ^ 22 + b) -> forall tl, wire tl = tail c ->
  wire (a * 2 ^ 27 + (msg_len c * 2 ^ 22 + b) :: more c ++ tl) = layout c.
Proof.
  intros E tl T. rewrite <- E. change (hword c :: more c ++ tl) with ((hword c :: more c) ++ tl).
  rewrite wire_app, T. reflexivity.
Qed.
Lemma hi32_small a : a < 2 ^ 52 -> hi32 a = a / 2 ^ 32.
Proof.
  intros H. unfold hi32. rewrite N.shiftr_div_pow2. apply N.mod_small. apply N.div_lt_upper_bound; [discriminate|].
  eapply N.lt_trans; [exact H|reflexivity].
Qed.
Lemma addr_facts a : addr_sendable a ->
  needs_ext0 a = false /\ hi32 a = a / 2 ^ 32 mod 2 ^ 20 /\ addr31_6 a = a / 64 mod 2 ^ 26.
Proof.
  intros [H M]. assert (A20 : a / 2 ^ 32 < 2 ^ 20) by (apply N.div_lt_upper_bound; [discriminate|exact H]).
  repeat split.
  - unfold needs_ext0. rewrite (hi32_small a H), !get_field_div.
    change (2 ^ 0) with 1. rewrite N.div_1_r. change (2 ^ 8) with 256. rewrite M.
    rewrite (N.div_small (a / 2 ^ 32)) by exact A20. reflexivity.
  - rewrite (hi32_small a H). symmetry. apply N.mod_small. exact A20.
  - unfold addr31_6. rewrite N.shiftr_div_pow2. change (2 ^ 6) with 64. change (2 ^ 26) with 67108864. change u32 with 4294967296.
    change (2 ^ 32) with 4294967296 in *. change (2 ^ 52) with 4503599627370496 in H. clear -M. lia.
Qed.
Lemma low_bits a : get_field 0 6 (a mod u32) = a mod 64.
Proof. rewrite get_field_div. change (2 ^ 0) with 1. change (2 ^ 6) with 64. change u32 with 4294967296. lia. Qed.
Lemma fold8 (g : nat -> bool) :
  fold_left (fun acc i => if g i then N.lor acc (N.shiftl 1 (N.of_nat i)) else acc) (seq 0 8) 0 =
  place (map (fun i => (N.of_nat i, if g i then 1 else 0)) (seq 0 8)).
Proof.
  cbn [seq fold_left map place].
  destruct (g 0%nat), (g 1%nat), (g 2%nat), (g 3%nat), (g 4%nat), (g 5%nat), (g 6%nat), (g 7%nat); reflexivity.
Qed.
Lemma be_list_nth m j : nth j (be_list m) false = Nat.ltb j (length (m_data m)) && be_at (m_be m) (N.of_nat j).
Proof.
  unfold be_list. destruct (Nat.ltb_spec j (length (m_data m))) as [H|H].
  - rewrite (nth_indep _ false (be_at (m_be m) (N.of_nat 0))) by (rewrite map_length, seq_length; exact H).
    rewrite (map_nth (fun i => be_at (m_be m) (N.of_nat i))), seq_nth by exact H. reflexivity.
  - apply nth_overflow. rewrite map_length, seq_length. exact H.
Qed.
Lemma lanes_lt be k : lanes be k < 256.
Proof.
  unfold lanes. cbn [seq map place].
  repeat match goal with |- context [if nth ?i be false then 1 else 0] => destruct (nth i be false) end; reflexivity.
Qed.
Lemma place_be_spec m : (length (m_data m) = 16 \/ length (m_data m) = 32 \/ length (m_data m) = 64)%nat ->
  wire (place_be m) = be_bytes (be_list m).
Proof.
  intros L. unfold place_be. set (len := N.of_nat (length (m_data m))).
  assert (BC : be_count len = (4 * ((length (m_data m) + 31) / 32))%nat).
  { unfold be_count. subst len. destruct L as [E|[E|E]]; rewrite E; reflexivity. }
  assert (BL : length (be_list m) = length (m_data m)) by (unfold be_list; rewrite map_length, seq_length; reflexivity).
  assert (E : map (fun k => match m_be m with
    | Some (b :: bs) => be_byte (b :: bs) len (N.of_nat k)
    | _ => if (len mod 8 =? 0) && (len <=? 8 * N.of_nat k) then 0 else 255 end) (seq 0 (be_count len)) = be_bytes (be_list m)).
  { unfold be_bytes. rewrite BL, <- BC. apply map_ext. intro k.
    assert (NB : forall bs, m_be m = bs -> match bs with Some (_ :: _) => False | _ => True end ->
      (if (len mod 8 =? 0) && (len <=? 8 * N.of_nat k) then 0 else 255) = lanes (be_list m) k).
    { intros bs Hb Hn. unfold lanes. rewrite (map_ext_in _ (fun i => (N.of_nat i, if Nat.ltb (8 * k) (length (m_data m)) then 1 else 0))).
      - assert (M8 : len mod 8 =? 0 = true) by (subst len; destruct L as [E|[E|E]]; rewrite E; reflexivity). rewrite M8. cbn [andb].
        destruct (Nat.ltb_spec (8 * k) (length (m_data m))) as [H|H].
        + replace (len <=? 8 * N.of_nat k) with false by (symmetry; apply N.leb_gt; subst len; lia). reflexivity.
        + replace (len <=? 8 * N.of_nat k) with true by (symmetry; apply N.leb_le; subst len; lia). reflexivity.
      - intros i Hi. apply in_seq in Hi. f_equal. rewrite be_list_nth, Hb.
        replace (be_at bs (N.of_nat (8 * k + i))) with true by (destruct bs as [[|? ?]|]; [reflexivity|contradiction|reflexivity]).
        rewrite Bool.andb_true_r.
        replace (Nat.ltb (8 * k + i) (length (m_data m))) with (Nat.ltb (8 * k) (length (m_data m))); [reflexivity|].
        destruct (Nat.ltb_spec (8 * k) (length (m_data m))), (Nat.ltb_spec (8 * k + i) (length (m_data m))); try reflexivity; lia. }
    destruct (m_be m) as [[|b bs]|] eqn:Eb; [apply (NB _ eq_refl I)| |apply (NB _ eq_refl I)].
    unfold be_byte. set (f := fun p => (p <? len) && (nth (N.to_nat (p mod N.of_nat (length (b :: bs)))) (b :: bs) 0 =? BE_ON)).
    change (fold_left (fun acc i => if (fun i => f (8 * N.of_nat k + N.of_nat i)) i then N.lor acc (N.shiftl 1 (N.of_nat i)) else acc) (seq 0 8) 0 = lanes (be_list m) k).
    rewrite fold8. unfold lanes. f_equal. apply map_ext. intro i. f_equal. rewrite be_list_nth, Eb.
    replace (8 * N.of_nat k + N.of_nat i) with (N.of_nat (8 * k + i)) by lia. unfold f.
    replace (N.of_nat (8 * k + i) <? len) with (Nat.ltb (8 * k + i) (length (m_data m))); [reflexivity|].
    subst len. destruct (Nat.ltb_spec (8 * k + i) (length (m_data m))); symmetry; [apply N.ltb_lt|apply N.ltb_ge]; lia. }
  rewrite E. apply (pack_wire _ ((length (m_data m) + 31) / 32)).
  - rewrite be_bytes_length, BL. reflexivity.
  - unfold be_bytes. apply Forall_forall. intros y Hy. apply in_map_iff in Hy. destruct Hy as (k & <- & _). apply lanes_lt.
Qed.
Lemma place_data_spec m : data_ok (m_data m) -> exists ws, place_data m = Ok ws /\ wire ws = m_data m.
Proof.
  intros (B & M & _). unfold place_data. replace (_ =? 0) with true by (symmetry; apply N.eqb_eq; lia).
  eexists. split; [reflexivity|]. apply (pack_wire _ (length (m_data m) / 4)); [|exact B]. lia.
Qed.
Lemma wire_words ws : (4 * length ws = length (wire ws))%nat. Proof. symmetry. apply wire_length. Qed.

Lemma req_sent m : sendable m -> m_attr m MsgType = 1 -> exists ws, req_words m = Ok ws /\ wire ws = layout (sent m).
Proof.
  intros (_ & O & _ & _ & _ & SA & _ & _ & BE) T. destruct (SA T) as [AS LO]. clear SA.
  destruct (addr_facts _ AS) as (F1 & F2 & F3). unfold req_words. rewrite F1, F2, F3, low_bits. cbn [orb].
  pose proof (msg_len_lt _ O) as [ML _].
  assert (SE : sent m = Request (m_attr m TxnID) (m_attr m ReqOp) (m_attr m ReqAttr) (m_addr m) (m_attr m NonSecure) (m_attr m QoS)
    (mkExt None (negb (m_addr m mod 64 =? 0)) None None)
    (if wr m && existsb (N.eqb (m_attr m ReqOp)) be_ops then Some (be_list m) else None) (if wr m then m_data m else []))
    by (unfold sent; rewrite T; reflexivity).
  pose proof (cmsg_be _ O) as BS.
  set (c := sent m) in *. pose proof O as O'. rewrite SE in O'. cbn [cmsg_ok] in O'.
  destruct O' as (O1 & O2 & O3 & O4 & O5 & O6 & _ & O8 & _).
  set (e1 := negb (m_addr m mod 64 =? 0)) in *.
  destruct (addr_parts (m_addr m)) as [A1 A2].
  set (L0 := [(10, 12, m_attr m TxnID); (8, 2, 0); (0, 8, m_attr m ReqOp)]).
  assert (FL : fit 22 L0) by (subst L0; fits; eapply N.lt_trans; [exact O2|reflexivity]).
  destruct (common_fields (bnum e1) (m_attr m MsgType) L0) as [C0 C1];
    [destruct e1; reflexivity|rewrite T; reflexivity|exact FL|].
  unfold common. rewrite C0. cbn [rbind].
  assert (X1 : (if e1 then if ext1_allowed (m_attr m ReqOp) then rmap (fun w => [w]) (fields [(28, 3, 1); (0, 6, N.land (m_addr m) 63)]) else AssertFail else Ok [])
    = Ok (ext_words (ext_fields (m_addr m) (mkExt None e1 None None)))).
  { subst e1. destruct (N.eqb_spec (m_addr m mod 64) 0) as [E|E]; cbn [negb]; [reflexivity|].
    replace (ext1_allowed (m_attr m ReqOp)) with true.
    2:{ symmetry. unfold ext1_allowed. apply orb_true_iff. destruct (LO E) as [H|H]; [left; apply op_in_iff; exact H|right].
        unfold is_atomic_op. apply andb_true_iff. split; apply N.leb_le; lia. }
    change 63 with (N.ones 6). rewrite N.land_ones. change (2 ^ 6) with 64.
    rewrite (fields_fit _ 32) by (fits; apply N.mod_lt; discriminate). reflexivity. }
  rewrite X1. cbn [rbind].
  rewrite (fields_fit [(24, 8, _); (20, 4, 0); (0, 20, _)] 32) by fits. cbn [rbind].
  rewrite (fields_fit [(6, 26, _); (5, 1, 0); (4, 1, _); (0, 4, _)] 32) by fits. cbn [rbind].
  set (TL := if is_wr m then _ else _).
  assert (ET : exists tl, TL = Ok tl /\ wire tl = tail c).
  { subst TL. rewrite SE. cbn [tail]. unfold is_wr, wr in *. destruct (m_cmd m) eqn:Ec; cbn [andb].
    - exists []. split; reflexivity.
    - destruct (place_data_spec m O8) as (ws & P & W). rewrite P. unfold rmap. cbn [rbind].
      eexists. split; [reflexivity|]. rewrite wire_app, W. f_equal. rewrite SE in BS. cbn [andb be_of be_sized] in BS.
      unfold has_bes, op_in. change be_ops with [32; 34; 36] in BS |- *.
      revert BS. destruct (existsb (N.eqb (m_attr m ReqOp)) [32; 34; 36]); intro BS; [|reflexivity]. cbn [opt_be].
      apply place_be_spec. cbn [be_sized] in BS. unfold be_list in BS. rewrite map_length, seq_length in BS. exact BS.
    - exists []. split; reflexivity. }
  destruct ET as (tl & ET & WT). rewrite ET. cbn [rbind app].
  pose proof (tail_mod _ O) as [TM _].
  assert (MO : more c = ext_words (ext_fields (m_addr m) (mkExt None e1 None None)) ++
    [place (strip [(24, 8, m_attr m ReqAttr); (20, 4, 0); (0, 20, m_addr m / 2 ^ 32 mod 2 ^ 20)]);
     place (strip [(6, 26, m_addr m / 64 mod 2 ^ 26); (5, 1, 0); (4, 1, m_attr m NonSecure); (0, 4, m_attr m QoS)])]).
  { rewrite SE. reflexivity. }
  set (B := place (strip L0)) in *.
  rewrite (finish_spec _ B _ (msg_len c) C1).
  - eexists. split; [reflexivity|].
    match goal with |- wire (_ :: ?x) = _ => replace x with (more c ++ tl) end.
    2:{ rewrite MO, <- app_assoc. reflexivity. }
    apply wire_layout; [|exact WT]. unfold hword. rewrite SE at 1 3. rewrite T. cbn [head fst snd app place].
    subst B L0. cbn [strip map fst snd place]. change (2 ^ 31) with (16 * 2 ^ 27).
    replace (some_ext (ext_fields (m_addr m) (mkExt None e1 None None))) with (bnum e1) by (destruct e1; reflexivity). lia.
  - unfold msg_len. rewrite MO, <- WT, wire_length. rewrite !app_length. cbn [length]. rewrite Nat.mul_comm, Nat.div_mul by discriminate. lia.
  - exact ML.
Qed.
Lemma rsp_sent m : sendable m -> m_attr m MsgType = 9 \/ m_attr m MsgType = 10 ->
  exists ws, rsp_words m = Ok ws /\ wire ws = layout (sent m).
Proof.
  intros (_ & O & _ & _ & _ & _ & _ & _ & BE) T. unfold rsp_words.
  pose proof (msg_len_lt _ O) as [ML _]. pose proof (cmsg_be _ O) as BS.
  assert (SE : sent m = Response (m_attr m MsgType) (m_attr m TxnID) (m_attr m RespAttr) (m_attr m RespOp) no_ext
    (if wr m && (m_attr m MsgType =? 10) && ((m_attr m RespOp =? 2) || (m_attr m RespOp =? 3)) then Some (be_list m) else None)
    (if wr m then m_data m else []))
    by (unfold sent; destruct T as [T|T]; rewrite T; reflexivity).
  set (c := sent m) in *. pose proof O as O'. rewrite SE in O'. cbn [cmsg_ok] in O'.
  destruct O' as (_ & O1 & O2 & O3 & _ & _ & O8 & _).
  set (L0 := [(10, 12, m_attr m TxnID); (7, 3, 0); (4, 3, m_attr m RespAttr); (3, 1, 0); (0, 3, m_attr m RespOp)]).
  assert (FL : fit 22 L0) by (subst L0; fits).
  destruct (common_fields 0 (m_attr m MsgType) L0) as [C0 C1];
    [reflexivity|destruct T as [T|T]; rewrite T; reflexivity|exact FL|].
  unfold common. rewrite C0. cbn [rbind].
  set (TL := if is_wr m then _ else _).
  assert (ET : exists tl, TL = Ok tl /\ wire tl = tail c).
  { subst TL. rewrite SE. cbn [tail]. unfold is_wr, wr in *. destruct (m_cmd m) eqn:Ec; cbn [andb].
    - exists []. split; reflexivity.
    - destruct (place_data_spec m O8) as (ws & P & W). rewrite P. unfold rmap. cbn [rbind].
      eexists. split; [reflexivity|]. rewrite wire_app, W. f_equal. rewrite SE in BS. cbn [andb be_of be_sized] in BS.
      unfold snp_ptl. change T_SnpResp with 10.
      revert BS. destruct ((m_attr m MsgType =? 10) && ((m_attr m RespOp =? 2) || (m_attr m RespOp =? 3))); intro BS; [|reflexivity].
      cbn [opt_be]. apply place_be_spec. cbn [be_sized] in BS. unfold be_list in BS. rewrite map_length, seq_length in BS. exact BS.
    - exists []. split; reflexivity. }
  destruct ET as (tl & ET & WT). rewrite ET. cbn [rbind].
  assert (MO : more c = []) by (rewrite SE; reflexivity).
  set (B := place (strip L0)) in *.
  rewrite (finish_spec _ B _ (msg_len c) C1).
  - eexists. split; [reflexivity|].
    match goal with |- wire (_ :: ?x) = _ => replace x with (more c ++ tl) by (rewrite MO; reflexivity) end.
    apply wire_layout; [|exact WT]. unfold hword. rewrite SE at 1 3. cbn [head fst snd app place].
    subst B L0. cbn [strip map fst snd place]. change (some_ext (ext_fields 0 no_ext)) with 0. lia.
  - unfold msg_len. rewrite MO, <- WT, wire_length. cbn [length]. rewrite Nat.mul_comm, Nat.div_mul by discriminate. lia.
  - exact ML.
Qed.
Lemma snp_sent m : sendable m -> m_attr m MsgType = 2 -> exists ws, snp_words m = Ok ws /\ wire ws = layout (sent m).
Proof.
  intros (_ & O & _ & _ & _ & _ & SA & _ & BE) T. destruct (SA T) as [AS LO]. clear SA.
  destruct (addr_facts _ AS) as (F1 & F2 & F3). unfold snp_words. rewrite F1, F2, F3, low_bits, LO. cbn [bnum].
  pose proof (msg_len_lt _ O) as [ML _].
  assert (SE : sent m = Snoop (m_attr m TxnID) (m_attr m SnpCast) (m_attr m DataRet) (m_attr m SnpOp) (m_addr m) (m_attr m NonSecure) no_ext)
    by (unfold sent; rewrite T, LO; reflexivity).
  set (c := sent m) in *. pose proof O as O'. rewrite SE in O'. cbn [cmsg_ok] in O'.
  destruct O' as (O1 & O2 & O3 & O4 & O5 & O6 & _).
  destruct (addr_parts (m_addr m)) as [A1 A2].
  set (L0 := [(10, 12, m_attr m TxnID); (7, 3, 0); (5, 2, m_attr m SnpCast); (4, 1, m_attr m DataRet); (0, 4, m_attr m SnpOp)]).
  assert (FL : fit 22 L0) by (subst L0; fits).
  destruct (common_fields 0 (m_attr m MsgType) L0) as [C0 C1]; [reflexivity|rewrite T; reflexivity|exact FL|].
  unfold common. rewrite C0. cbn [rbind N.eqb].
  rewrite (fields_fit [(20, 12, 0); (0, 20, _)] 32) by fits. cbn [rbind].
  rewrite (fields_fit [(6, 26, _); (5, 1, 0); (4, 1, _); (0, 4, _)] 32) by fits. cbn [rbind app].
  assert (MO : more c =
    [place (strip [(20, 12, 0); (0, 20, m_addr m / 2 ^ 32 mod 2 ^ 20)]);
     place (strip [(6, 26, m_addr m / 64 mod 2 ^ 26); (5, 1, 0); (4, 1, m_attr m NonSecure); (0, 4, 0)])]).
  { rewrite SE. reflexivity. }
  set (B := place (strip L0)) in *.
  rewrite (finish_spec _ B _ (msg_len c) C1).
  - eexists. split; [reflexivity|].
    match goal with |- wire (_ :: ?x) = _ => replace x with (more c ++ []) by (rewrite app_nil_r; exact MO) end.
    apply wire_layout; [|rewrite SE; reflexivity]. unfold hword. rewrite SE at 1 3. rewrite T. cbn [head fst snd app place].
    subst B L0. cbn [strip map fst snd place].
    replace (some_ext (ext_fields (m_addr m) no_ext)) with 0 by reflexivity. lia.
  - unfold msg_len. rewrite MO, SE. reflexivity.
  - exact ML.
Qed.
Lemma crd_sent m : sendable m -> m_attr m MsgType = 11 -> m_attr m MiscOp <> 0 ->
  exists ws, crd_words m = Ok ws /\ wire ws = layout (sent m).
Proof.
  intros (_ & O & _) T Z. unfold crd_words. pose proof (msg_len_lt _ O) as [ML _].
  assert (SE : sent m = Credits (m_attr m MiscOp) (m_attr m DataCredit) (m_attr m ReqCredit) (m_attr m MiscCredit) (m_attr m SnpCredit)).
  { unfold sent. rewrite T. cbn [N.eqb Pos.eqb]. destruct (N.eqb_spec (m_attr m MiscOp) 0); [contradiction|reflexivity]. }
  set (c := sent m) in *. pose proof O as O'. rewrite SE in O'. cbn [cmsg_ok] in O'. destruct O' as (O1 & O2 & O3 & O4 & O5).
  set (L0 := [(16, 4, m_attr m MiscOp); (8, 8, m_attr m DataCredit); (0, 8, m_attr m ReqCredit)]).
  assert (FL : fit 22 L0) by (subst L0; fits; destruct O1 as [E|E]; rewrite E; reflexivity).
  destruct (common_fields 0 (m_attr m MsgType) L0) as [C0 C1]; [reflexivity|rewrite T; reflexivity|exact FL|].
  assert (C0' : fields (common 0 (m_attr m) ++ (19, 3, 0) :: L0) = fields ([(31, 1, 0); (27, 4, m_attr m MsgType); (22, 5, 0)] ++ L0)).
  { apply fields_app_zero. }
  rewrite C0', C0. cbn [rbind].
  rewrite (fields_fit [(16, 16, 0); (8, 8, _); (0, 8, _)] 32) by fits. cbn [rbind].
  assert (MO : more c = [place (strip [(16, 16, 0); (8, 8, m_attr m MiscCredit); (0, 8, m_attr m SnpCredit)])]) by (rewrite SE; reflexivity).
  set (B := place (strip L0)) in *.
  rewrite (finish_spec _ B _ (msg_len c) C1).
  - eexists. split; [reflexivity|].
    match goal with |- wire (_ :: ?x) = _ => replace x with (more c ++ []) by (rewrite app_nil_r; exact MO) end.
    apply wire_layout; [|rewrite SE; reflexivity]. unfold hword. rewrite SE at 1 3. rewrite T. cbn [head fst snd app place].
    subst B L0. cbn [strip map fst snd place]. lia.
  - unfold msg_len. rewrite MO, SE. reflexivity.
  - exact ML.
Qed.
Lemma nop_sent m : m_attr m MsgType = 11 -> m_attr m MiscOp = 0 ->
  exists ws, nop_words m = Ok ws /\ wire ws = layout (sent m).
Proof.
  intros T Z. unfold nop_words, sent, common. rewrite T, Z. eexists. split; [vm_compute; reflexivity|vm_compute; reflexivity].
Qed.
Lemma overlap_or cr op : cr < 8 -> op < 16 -> op / 8 = cr mod 2 ->
  N.lor (N.shiftl cr 19) (N.shiftl op 16) = cr * 2 ^ 19 + op mod 8 * 2 ^ 16.
Proof.
  intros C O E.
  assert (A : forallb (fun i => forallb (fun j => negb (j / 8 =? i mod 2) ||
    (N.lor (N.shiftl i 19) (N.shiftl j 16) =? i * 2 ^ 19 + j mod 8 * 2 ^ 16)) (map N.of_nat (seq 0 16))) (map N.of_nat (seq 0 8)) = true)
    by (vm_compute; reflexivity).
  rewrite forallb_forall in A. specialize (A cr). rewrite forallb_forall in A.
  assert (I1 : In cr (map N.of_nat (seq 0 8))) by (apply in_map_iff; exists (N.to_nat cr); split; [apply N2Nat.id|apply in_seq; lia]).
  assert (I2 : In op (map N.of_nat (seq 0 16))) by (apply in_map_iff; exists (N.to_nat op); split; [apply N2Nat.id|apply in_seq; lia]).
  specialize (A I1 op I2). rewrite E, N.eqb_refl in A. cbn [negb orb] in A. apply N.eqb_eq. exact A.
Qed.
Lemma pack_pad n : forall l, (length l <= n)%nat -> bytes_ok l -> wire (pack l) = pad4 l.
Proof.
  induction n as [n IH] using lt_wf_ind. intros l L B.
  destruct l as [|a [|b [|c [|d l]]]]; [reflexivity| | | |].
  - inversion B as [|? ? Ba _]; subst. cbn [pack wire flat_map]. rewrite app_nil_r. change (pad4 [a]) with [a; 0; 0; 0].
    rewrite <- (be_enc4 a 0 0 0) by (try assumption; reflexivity). f_equal. rewrite N.shiftl_mul_pow2. change (2 ^ 24) with 16777216. lia.
  - inversion B as [|? ? Ba B1]; subst. inversion B1 as [|? ? Bb _]; subst. cbn [pack wire flat_map]. rewrite app_nil_r. change (pad4 [a; b]) with [a; b; 0; 0].
    rewrite <- (be_enc4 a b 0 0) by (try assumption; reflexivity). f_equal.
    rewrite lor_shift; rewrite N.shiftl_mul_pow2; change (2 ^ 24) with 16777216; change (2 ^ 16) with 65536; red in Ba, Bb; lia.
  - inversion B as [|? ? Ba B1]; subst. inversion B1 as [|? ? Bb B2]; subst. inversion B2 as [|? ? Bc _]; subst.
    cbn [pack wire flat_map]. rewrite app_nil_r. change (pad4 [a; b; c]) with [a; b; c; 0].
    rewrite <- (be_enc4 a b c 0) by (try assumption; reflexivity). f_equal. red in Ba, Bb, Bc.
    rewrite (lor_shift b) by (rewrite N.shiftl_mul_pow2; change (2 ^ 8) with 256; change (2 ^ 16) with 65536; lia).
    rewrite lor_shift; rewrite N.shiftl_mul_pow2; change (2 ^ 24) with 16777216; change (2 ^ 16) with 65536; change (2 ^ 8) with 256; lia.
  - cbn [length] in L. inversion B as [|? ? Ba B1]; subst. inversion B1 as [|? ? Bb B2]; subst. inversion B2 as [|? ? Bc B3]; subst.
    inversion B3 as [|? ? Bd B4]; subst.
    change (pack (a :: b :: c :: d :: l)) with (pack [a; b; c; d] ++ pack l). rewrite wire_app.
    rewrite (pack_wire [a; b; c; d] 1) by (try reflexivity; repeat constructor; assumption).
    rewrite (IH (n - 4)%nat) by (try assumption; lia). unfold pad4. cbn [app length]. do 4 f_equal. f_equal.
    replace (S (S (S (S (length l)))) mod 4)%nat with (length l mod 4)%nat by (clear; lia). reflexivity.
Qed.
Lemma slice_firstn (l : list N) n : slice 2 (n - 2) l = skipn 2 (firstn n l).
Proof. unfold slice. rewrite skipn_firstn_comm. reflexivity. Qed.
Lemma misc_sent m : sendable m -> m_attr m MsgType = 3 -> exists ws, misc_words m = Ok ws /\ wire ws = layout (sent m).
Proof.
  intros (_ & O & _ & _ & _ & _ & _ & SP & _) T. destruct (SP T) as (LP & N1 & M30). clear SP.
  unfold misc_words. pose proof (msg_len_lt _ O) as [ML _].
  set (n := N.to_nat (m_attr m PayloadSz)).
  assert (SE : sent m = Misc (m_attr m MiscCredit) (m_attr m MiscOp) (firstn n (m_pay m))) by (unfold sent; rewrite T; reflexivity).
  set (c := sent m) in *. pose proof O as O'. rewrite SE in O'. cbn [cmsg_ok] in O'. destruct O' as (O1 & O2 & O3 & O4 & O5).
  set (cr := m_attr m MiscCredit) in *. set (op := m_attr m MiscOp) in *. set (p := firstn n (m_pay m)) in *.
  assert (LN : length p = n) by (subst p; apply firstn_length_le; rewrite LP; subst n; lia).
  set (V := cr * 2 ^ 19 + op mod 8 * 2 ^ 16).
  assert (FV : fields [(19, 3, cr); (16, 4, op)] = Ok V).
  { cbn [fields]. unfold set_field. replace (cr <? 2 ^ 3) with true by (symmetry; apply N.ltb_lt; exact O1).
    replace (op <? 2 ^ 4) with true by (symmetry; apply N.ltb_lt; exact O2). cbn [rbind]. rewrite N.lor_0_r.
    rewrite overlap_or by assumption. reflexivity. }
  assert (VB : V < 2 ^ 22).
  { subst V. change (2 ^ 19) with 524288. change (2 ^ 16) with 65536. change (2 ^ 22) with 4194304. clear -O1 O2. lia. }
  assert (FC : fields (common 0 (m_attr m) ++ [(19, 3, cr); (16, 4, op)]) = Ok (3 * 2 ^ 27 + V)).
  { unfold common. rewrite T. cbn [app].
    rewrite fields_zero.
    pose proof (fields_app_zero [(27, 4, 3)] 22 5 [(19, 3, cr); (16, 4, op)]) as Z. cbn [app] in Z. rewrite Z. clear Z.
    apply fields_cons; [reflexivity|exact FV|eapply N.lt_trans; [exact VB|reflexivity]]. }
  rewrite FC. cbn [rbind].
  set (w0 := if 0 <? m_attr m PayloadSz then _ else _).
  assert (W0 : w0 = 3 * 2 ^ 27 + (V + nth 0 p 0 * 256 + nth 1 p 0)).
  { subst w0. pose proof (bytes_nth p 0 O4) as B0. pose proof (bytes_nth p 1 O4) as B1. change (2 ^ 8) with 256 in B0, B1.
    destruct (N.ltb_spec 0 (m_attr m PayloadSz)) as [H|H].
    - assert (Q0 : nth 0 (m_pay m) 0 = nth 0 p 0 /\ nth 1 (m_pay m) 0 = nth 1 p 0).
      { subst p. destruct (m_pay m) as [|a [|b l]]; [discriminate LP|discriminate LP|].
        destruct n as [|[|n']] eqn:En; [lia|lia|]. split; reflexivity. }
      destruct Q0 as [Q0 Q1]. rewrite Q0, Q1. rewrite (lor_shift _ _ 8) by exact B1.
      assert (EV : 3 * 2 ^ 27 + V = (3 * 2 ^ 11 + cr * 8 + op mod 8) * 2 ^ 16).
      { subst V. change (2 ^ 27) with (2 ^ 11 * 2 ^ 16). change (2 ^ 19) with (8 * 2 ^ 16). lia. }
      rewrite EV, <- N.shiftl_mul_pow2.
      rewrite lor_shift by (change (2 ^ 16) with 65536; change (2 ^ 8) with 256; lia).
      change (2 ^ 8) with 256. rewrite <- EV. lia.
    - assert (n = 0%nat) by (subst n; lia). assert (EP : p = []) by (subst p; rewrite H0; reflexivity). rewrite EP. cbn [nth]. lia. }
  set (TL := if 2 <? m_attr m PayloadSz then _ else _).
  assert (ET : exists tl, TL = Ok tl /\ wire tl = tail c).
  { subst TL. rewrite SE. cbn [tail]. destruct (N.ltb_spec 2 (m_attr m PayloadSz)) as [H|H].
    - replace (32 <? m_attr m PayloadSz) with false by (symmetry; apply N.ltb_ge; lia).
      eexists. split; [reflexivity|]. rewrite (slice_firstn (m_pay m)). fold n. fold p. apply (pack_pad (length (skipn 2 p))); [reflexivity|].
      clear -O4. destruct p as [|a [|b l]]; [exact O4|constructor|]. inversion O4 as [|? ? ? B]; subst. inversion B; assumption.
    - exists []. split; [reflexivity|]. rewrite skipn_all2 by (rewrite LN; subst n; lia). reflexivity. }
  destruct ET as (tl & ET & WT). rewrite ET. cbn [rbind].
  assert (MO : more c = []) by (rewrite SE; reflexivity).
  rewrite W0. pose proof (bytes_nth p 0 O4) as B0. pose proof (bytes_nth p 1 O4) as B1. change (2 ^ 8) with 256 in B0, B1.
  rewrite (finish_spec 3 _ _ (msg_len c)).
  - eexists. split; [reflexivity|].
    match goal with |- wire (_ :: ?x) = _ => replace x with (more c ++ tl) by (rewrite MO; reflexivity) end.
    apply wire_layout; [|exact WT]. unfold hword. rewrite SE at 1 3. cbn [head fst snd app place].
    subst V. change (2 ^ 8) with 256. change (2 ^ 0) with 1. lia.
  - subst V. change (2 ^ 19) with 524288. change (2 ^ 16) with 65536. change (2 ^ 22) with 4194304. clear -O1 O2 B0 B1. lia.
  - unfold msg_len. rewrite MO, <- WT, wire_length. cbn [length]. rewrite Nat.mul_comm, Nat.div_mul by discriminate. lia.
  - exact ML.
Qed.

Lemma sender_spec m : sendable m -> exists ws, msg_words m = Ok (Some ws) /\ wire ws = layout (sent m).
Proof.
  intros S. pose proof S as (T & O & _). unfold msg_words.
  assert (G : forall f, (exists ws, f m = Ok ws /\ wire ws = layout (sent m)) -> exists ws, rmap Some (f m) = Ok (Some ws) /\ wire ws = layout (sent m)).
  { intros f (ws & E & W). exists ws. rewrite E. split; [reflexivity|exact W]. }
  cbn [In] in T. destruct T as [T|[T|[T|[T|[T|[T|[]]]]]]]; symmetry in T.
  - rewrite T. apply (G req_words). apply req_sent; assumption.
  - rewrite T. apply (G snp_words). apply snp_sent; assumption.
  - rewrite T. apply (G misc_words). apply misc_sent; assumption.
  - rewrite T. apply (G rsp_words). apply rsp_sent; auto.
  - rewrite T. apply (G rsp_words). apply rsp_sent; auto.
  - rewrite T. change (11 =? T_Req) with false. change (11 =? T_SnpReq) with false. change (11 =? T_Resp) with false. change (11 =? T_SnpResp) with false.
    change (11 =? T_MiscUnCredited) with true. cbn [orb].
    destruct (N.eqb_spec (m_attr m MiscOp) 0) as [Z|Z].
    + apply (G nop_words). apply nop_sent; assumption.
    + replace (op_in [1; 2] (m_attr m MiscOp)) with true.
      * apply (G crd_words). apply crd_sent; assumption.
      * symmetry. apply op_in_iff. unfold sent in O. rewrite T in O. cbn [N.eqb Pos.eqb] in O.
        destruct (N.eqb_spec (m_attr m MiscOp) 0); [contradiction|]. cbn [cmsg_ok] in O. destruct O as [[E|E] _]; rewrite E; cbn; auto.
Qed.
Lemma tlp_sent h m : sendable m ->
  tlp_of h m = Ok (Some (tlp_layout h (m_attr m TgtID) (m_attr m SrcID) (m_attr m MsgCredit) [sent m])).
Proof.
  intros S. destruct (sender_spec m S) as (ws & E & W). pose proof S as (_ & O & I1 & I2 & I3 & _).
  unfold tlp_of. rewrite E. cbn [rbind]. unfold tlp_layout. cbn [flat_map]. rewrite app_nil_r, <- W.
  assert (LW : N.of_nat (length ws) = N.of_nat (length (wire ws)) / 4).
  { rewrite wire_length. clear. lia. }
  assert (LB : N.of_nat (length ws) < 32).
  { pose proof (layout_length _ O) as L. rewrite <- W, wire_length in L. pose proof (msg_len_lt _ O) as [ML _]. change (2 ^ 5) with 32 in ML. clear -L ML. lia. }
  rewrite <- LW. change bytes_of_words with wire.
  assert (H : hdr_words h (m_attr m) (N.of_nat (length ws)) =
    Ok (hdr_layout h (m_attr m TgtID) (m_attr m SrcID) (m_attr m MsgCredit) (N.of_nat (length ws)))).
  { assert (L7 : N.of_nat (length ws) < 2 ^ 7) by (eapply N.lt_trans; [exact LB|reflexivity]).
    assert (L10 : N.of_nat (length ws) < 2 ^ 10) by (eapply N.lt_trans; [exact LB|reflexivity]).
    remember (N.of_nat (length ws)) as n. destruct h; cbn [hdr_words].
    - rewrite (fields_fit [(29, 3, 3); (24, 5, 18); (23, 1, 0); (20, 3, 7); (19, 1, 0); (17, 2, 0); (16, 1, 0); (15, 1, 0); (14, 1, 0); (12, 2, 0); (10, 2, 0); (0, 10, n)] 32) by fits.
      cbn [rbind]. rewrite (fields_fit [(30, 2, 0); (24, 6, _); (20, 4, 0); (14, 6, _); (8, 6, _); (0, 8, 0)] 32) by fits. cbn [rbind].
      change (fields [(16, 16, 0); (8, 8, 0); (0, 8, 127)]) with (Ok 127). cbn [rbind].
      change (fields [(24, 8, 0); (19, 5, 0); (16, 3, 0); (0, 16, 0)]) with (Ok 0). cbn [rbind]. unfold hdr_layout.
      reflexivity.
    - rewrite (fields_fit _ 32) by fits. unfold rmap. cbn [rbind]. reflexivity. }
  rewrite H. unfold rmap. cbn [rbind]. rewrite wire_app. reflexivity.
Qed.

Lemma be_at_some b i : b <> [] -> be_at (Some b) i = (nth (N.to_nat (i mod N.of_nat (length b))) b 0 =? BE_ON).
Proof. destruct b; [contradiction|reflexivity]. Qed.
(** what arrives is what was sent *)
Lemma received_same m r : sendable m -> received (sent m) (m_attr m TgtID) (m_attr m SrcID) (m_attr m MsgCredit) r -> same m r.
Proof.
  intros S (R1 & R2 & R3 & R4 & R5 & R6). pose proof S as (T & O & _ & _ & _ & _ & _ & SP & BE). unfold same.
  assert (D : data_of (sent m) = if wr m && op_in [1; 9; 10] (m_attr m MsgType) then m_data m else []).
  { unfold sent. cbn [In] in T. destruct T as [T|[T|[T|[T|[T|[T|[]]]]]]]; rewrite <- T; cbn [N.eqb Pos.eqb op_in existsb orb];
      rewrite ?Bool.andb_true_r, ?Bool.andb_false_r; cbn [data_of]; try reflexivity.
    destruct (m_attr m MiscOp =? 0); reflexivity. }
  rewrite <- D. split; [exact R1|]. split; [|split; [|split; [|split]]].
  - intros [E|[E|[]]]; rewrite R2; unfold sent; rewrite <- E; reflexivity.
  - intros Hd. rewrite R3. destruct (data_of (sent m)); [contradiction|reflexivity].
  - intros i Hi. rewrite R4. destruct (be_of (sent m)) as [l|] eqn:Eb.
    + assert (EL : l = be_list m /\ (length (data_of (sent m)) <= length (m_data m) /\ length (m_data m) <= 64)%nat).
      { assert (LD : (length (data_of (sent m)) <= 64)%nat).
        { clear -O. destruct (sent m); cbn [data_of length]; try lia; cbn [cmsg_ok] in O.
          - destruct O as (_ & _ & _ & _ & _ & _ & _ & (_ & _ & D) & _). exact D.
          - destruct O as (_ & _ & _ & _ & _ & _ & (_ & _ & D) & _). exact D. }
        assert (W : wr m = true /\ op_in [1; 9; 10] (m_attr m MsgType) = true /\ l = be_list m).
        { clear -Eb T. unfold sent in Eb. cbn [In] in T. destruct T as [T|[T|[T|[T|[T|[T|[]]]]]]]; rewrite <- T in *; cbn [N.eqb Pos.eqb] in Eb; cbn [be_of] in Eb.
          - destruct (wr m); cbn [andb] in Eb; [|discriminate Eb]. destruct (existsb _ _); [|discriminate Eb]. inversion Eb. repeat split.
          - discriminate Eb.
          - discriminate Eb.
          - rewrite Bool.andb_false_r in Eb. discriminate Eb.
          - destruct (wr m); cbn [andb] in Eb; [|discriminate Eb]. destruct (_ || _); [|discriminate Eb]. inversion Eb. repeat split.
          - destruct (m_attr m MiscOp =? 0); discriminate Eb. }
        destruct W as (W1 & W2 & W3). rewrite W1, W2 in D. cbn [andb] in D. rewrite D in LD |- *. repeat split; [exact W3|lia|exact LD]. }
      destruct EL as (EL & L1 & L2). subst l. cbn [option_map].
      assert (LE : length (enables (be_list m)) = 64%nat) by (unfold enables; rewrite map_length, seq_length; reflexivity).
      rewrite (be_at_some (enables (be_list m))) by (intros Z; rewrite Z in LE; discriminate LE). rewrite LE.
      rewrite N.mod_small by (change (N.of_nat 64) with 64; lia). rewrite Nat2N.id. unfold enables.
      rewrite nth_map_seq by lia. rewrite be_list_nth. replace (Nat.ltb i (length (m_data m))) with true by (symmetry; apply Nat.ltb_lt; lia).
      cbn [andb]. destruct (be_at (m_be m) (N.of_nat i)); reflexivity.
    + cbn [option_map be_at]. symmetry. apply BE; [reflexivity|exact Hi].
  - intros k Hk. rewrite R5. clear -Hk T. unfold sent. cbn [In] in T.
    destruct T as [T|[T|[T|[T|[T|[T|[]]]]]]]; rewrite <- T; cbn [N.eqb Pos.eqb];
      unfold carried in Hk; rewrite <- T in Hk; destruct k; cbn in Hk; try discriminate Hk; cbn; try reflexivity; try exact T;
      destruct (N.eqb_spec (m_attr m MiscOp) 0) as [E|E]; cbn; rewrite ?E in *; try reflexivity; try discriminate Hk; try exact T.
  - intros E. set (n := N.to_nat (m_attr m PayloadSz)). rewrite R6. unfold sent. rewrite E. cbn [N.eqb Pos.eqb pay_of]. fold n.
    rewrite firstn_app. destruct (SP E) as (LP & _ & L30).
    assert (LN : length (firstn n (m_pay m)) = n) by (apply firstn_length_le; subst n; lia).
    rewrite LN, Nat.sub_diag, firstn_O, app_nil_r. rewrite firstn_firstn, Nat.min_id. reflexivity.
Qed.
