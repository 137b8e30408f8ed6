From Verif Require Import Base BaseFacts TlmModel RpProtoModel RpProtoSpec RpProtoProofs
  RpMemModel RpMemSpec.
Open Scope N_scope.

Lemma enc_shape p i hd plen :
  rp_encode_busaccess p i = Ok (hd, plen) ->
  let k := if bus_old_layout p i then 58%nat else 80%nat in
  length hd = k /\ plen = N.of_nat k + bus_ret_size i.
Proof.
  unfold rp_encode_busaccess. destruct (bus_old_layout p i).
  - destruct (i_master i <? 65535); [|discriminate]. intros H. apply Ok_pair in H. destruct H as (-> & ->).
    rewrite app_length, encode_hdr_length, bus_common_length. cbn. split; reflexivity.
  - intros H. apply Ok_pair in H. destruct H as (-> & ->).
    rewrite !app_length, encode_hdr_length, bus_common_length, !be_enc_length. cbn. split; reflexivity.
Qed.

Lemma wire_enc p junk i data be bytes :
  wire p junk (MBus i data be) = Ok bytes ->
  exists hd plen, rp_encode_busaccess p i = Ok (hd, plen) /\ bytes = hd ++ data ++ be.
Proof.
  cbn [wire]. destruct (rp_encode_busaccess p i) as [[hd plen]| | |]; cbn; try discriminate.
  intros H. injection H as <-. eauto.
Qed.

Lemma overlay0 d l : overlay 0 d l = d ++ skipn (length d) l.
Proof. reflexivity. Qed.

Lemma rsp_packet k n hd d :
  length hd = k -> length d = n -> (k <= 80)%nat ->
  firstn (k + n) (overlay 0 hd (overlay k d (repeat 0 (Nat.max 88 (80 + n))))) = hd ++ d.
Proof.
  intros Hk Hn Hle. unfold overlay. cbn [firstn app].
  rewrite Hk, Nat.add_0_l.
  rewrite (skipn_app_len k).
  2:{ rewrite firstn_length, repeat_length. lia. }
  rewrite app_assoc. apply firstn_app_len. rewrite app_length. lia.
Qed.

Lemma merge_read_none i old new :
  length old = length new -> merge_read None i old new = new.
Proof.
  revert i new; induction old as [|o old IH]; intros i [|n new] H; cbn in *; try lia; auto.
  f_equal. apply IH. lia.
Qed.

Lemma slice_repeat off n m : (off + n <= m)%nat -> slice off n (repeat 0 m) = repeat 0 n.
Proof.
  intros H. unfold slice.
  replace m with (off + (n + (m - off - n)))%nat by lia.
  rewrite !repeat_app.
  rewrite (skipn_app_len off) by apply repeat_length.
  apply firstn_app_len, repeat_length.
Qed.

Lemma bus_response_code r a :
  (r = 0 \/ r = 1 \/ r = 2) -> N.lor a ATTR_EXT_BASE = N.lor (N.lor 0 (r * 256)) ATTR_EXT_BASE ->
  bus_response a = r.
Proof.
  intros Hr E. unfold bus_response.
  assert (E2 : N.land a RESP_MASK = N.land (N.lor a ATTR_EXT_BASE) RESP_MASK).
  { rewrite N.land_lor_distr_l. change (N.land ATTR_EXT_BASE RESP_MASK) with 0.
    rewrite N.lor_0_r. reflexivity. }
  rewrite E2, E. destruct Hr as [->|[->| ->]]; reflexivity.
Qed.

Lemma attr_bit a x f :
  N.lor a ATTR_EXT_BASE = N.lor x ATTR_EXT_BASE -> N.land ATTR_EXT_BASE f = 0 ->
  has_flag a f = has_flag x f.
Proof.
  intros E Hf. unfold has_flag.
  assert (H : forall z, N.land z f = N.land (N.lor z ATTR_EXT_BASE) f).
  { intros z. rewrite N.land_lor_distr_l, Hf, N.lor_0_r. reflexivity. }
  rewrite (H a), (H x), E. reflexivity.
Qed.

Lemma slave_attr_small a : slave_attr a < 16.
Proof. destruct a as [p m [] [] io []]; reflexivity. Qed.

Lemma slave_attr_flags a :
  has_flag (slave_attr a) ATTR_EOP = a_eop a /\ has_flag (slave_attr a) ATTR_SECURE = a_secure a /\
  has_flag (slave_attr a) ATTR_IO_ACCESS = false /\ has_flag (slave_attr a) ATTR_EXT_BASE = false.
Proof. destruct a as [p m [] [] io []]; repeat split; reflexivity. Qed.

Lemma resp_code_range st : resp_code st = 0 \/ resp_code st = 1 \/ resp_code st = 2.
Proof. destruct st; cbn; auto. Qed.

Lemma flags_small b : flag_if b FLAG_posted < u32.
Proof. destruct b; reflexivity. Qed.

Section Access.
Context {S : Type} (t : target S) (pl pr : caps).

(** Request half: what the remote target is asked to do. *)
Lemma request_half s id dev clk buf1 g a clk2 :
  wf_access g a id dev clk -> g_be g = None -> rxbuf_ok buf1 ->
  exists bytes r,
    slave_send pl id dev clk g a = Ok (if a_posted a then S_posted bytes else S_wait bytes) /\
    rx_one buf1 bytes = Ok (r, []) /\
    exists b e, r_pl r = PBus b e /\
      b_len b = g_len g /\ b_addr b = g_addr g /\ b_sw b = g_sw g /\ b_width b = 0 /\
      b_master b = a_master a /\
      hdr_is (r_hdr r) (i_cmd (slave_in id dev clk g a)) id dev (flag_if (a_posted a) FLAG_posted) /\
      master_handle pr t s clk2 r =
        (let '(s', d, st) := t s (at_target g) (attrs_at_target a) in
         match g_cmd g with
         | C_READ =>
           let off := if c_ext_base pr then 80%nat else 58%nat in
           rbind (rp_encode_busaccess pr (rsp_in (r_hdr r) b clk2 (resp_code st)))
             (fun '(hd, plen) => Ok (s', firstn (N.to_nat plen)
                (overlay 0 hd (overlay off d (repeat 0 (Nat.max 88 (80 + length (g_data g))))))))
         | _ =>
           if a_posted a then Ok (s', [])
           else rbind (rp_encode_busaccess pr (rsp_in (r_hdr r) b clk2 (resp_code st)))
             (fun '(hd, plen) => Ok (s', firstn (N.to_nat plen) (overlay 0 hd (repeat 0 88))))
         end).
Proof.
  intros (Hc & Ha & Hsw & Hd & Hlen & Hm & Hid & Hdev & Hclk) Hbe Hb.
  set (i := slave_in id dev clk g a).
  set (data := match g_cmd g with C_WRITE => g_data g | _ => [] end).
  assert (Hbl : g_be_len g = 0) by (unfold g_be_len; rewrite Hbe; reflexivity).
  assert (Hmm : a_master a mod 65536 = a_master a) by (apply N.mod_small; lia).
  assert (Hresp : has_flag (flag_if (a_posted a) FLAG_posted) FLAG_response = false)
    by (destruct (a_posted a); reflexivity).
  assert (Hcar : carries_data i = match g_cmd g with C_WRITE => true | _ => false end).
  { unfold carries_data, i, slave_in. cbn [i_cmd i_flags]. rewrite Hresp.
    destruct Hc as [-> | ->]; reflexivity. }
  assert (Hsend : sendable pl (MBus i data [])).
  { split.
    - assert (Has := slave_attr_small a). assert (Hfs := flags_small (a_posted a)).
      unfold wf_msg. rewrite Hcar.
      unfold wf_in, i, slave_in; cbn [i_cmd i_id i_flags i_dev i_clk i_master i_addr i_attr i_size i_width i_sw i_be_len].
      rewrite Hbl, Hmm.
      unfold u32, u64 in *.
      repeat match goal with |- _ /\ _ => split end; try lia; try assumption.
      + destruct (g_cmd g); reflexivity.
      + destruct Hc as [-> | ->]; [left|right]; reflexivity.
      + unfold data. destruct (g_cmd g); reflexivity.
      + reflexivity.
      + unfold data. destruct (g_cmd g); try assumption; constructor.
      + constructor.
    - cbn [sendable]. unfold i, slave_in at 1 3. cbn [i_master]. rewrite Hmm.
      split; [lia|]. intros _. split; [reflexivity|lia]. }
  assert (Hj : junk_ok (repeat 0 32)) by (unfold junk_ok; rewrite repeat_length; lia).
  destruct (one_packet pl (repeat 0 32) buf1 [] (MBus i data []) Hsend Hj Hb)
    as (bytes & r & W & R & Se).
  destruct (wire_enc _ _ _ _ _ _ W) as (hd & plen & En & ->).
  rewrite !app_nil_r in *.
  assert (Hret : bus_ret_size i = 0).
  { unfold bus_ret_size, i, slave_in; cbn [i_cmd i_flags]. rewrite Hresp.
    rewrite andb_false_r. reflexivity. }
  destruct (enc_shape _ _ _ _ En) as (L1 & L2). rewrite Hret, N.add_0_r in L2.
  exists (hd ++ data), r. split; [|split; [exact R|]].
  { unfold slave_send. rewrite Hbe. cbv match. fold i. rewrite En. cbn [rbind].
    rewrite L2, Nnat.Nat2N.id, <- L1, firstn_all.
    fold data. rewrite app_nil_r. reflexivity. }
  destruct Se as (Hh & b & e & P & Hts & Hba & Hbl' & Hbw & Hbs & Hbm & Hat & _ & _ & _ & _ & Hrx).
  unfold i, slave_in in Hbl', Hbw, Hbs, Hbm, Hat, Hba.
  cbn [i_size i_width i_sw i_master i_attr i_addr] in *. rewrite Hmm in Hbm.
  exists b, e. split; [exact P|]. do 5 (split; [assumption|]).
  split; [exact Hh|].
  destruct Hh as (H1 & H2 & H3 & H4).
  unfold i, slave_in in H1, H2, H3, H4. cbn [i_cmd i_id i_dev i_flags] in *.
  destruct (slave_attr_flags a) as (F1 & F2 & F3 & F4).
  rewrite <- (attr_bit _ _ ATTR_EOP Hat eq_refl) in F1.
  rewrite <- (attr_bit _ _ ATTR_SECURE Hat eq_refl) in F2.
  rewrite <- (attr_bit _ _ ATTR_IO_ACCESS Hat eq_refl) in F3.
  unfold master_handle. rewrite P, H1.
  assert (Hposted : has_flag (h_flags (r_hdr r)) FLAG_posted = a_posted a).
  { rewrite H4. destruct (a_posted a); reflexivity. }
  destruct Hc as [Ec|Ec]; rewrite Ec; cbv match.
  - change (CMD_read =? CMD_write) with false. cbv match.
    unfold master_read, bus_access. rewrite Hbw, Hposted, F1, F2, F3, Hbm, Hba, Hbs, Hbl'.
    cbn [N.eqb negb].
    unfold g_len. rewrite Nnat.Nat2N.id.
    assert (Hz : slice (if c_ext_base pr then 80 else 58)%nat (length (g_data g))
              (repeat 0 (Nat.max 88 (80 + length (g_data g)))) = repeat 0 (length (g_data g))).
    { apply slice_repeat. clear. destruct (c_ext_base pr); lia. }
    rewrite Hz. unfold at_target, attrs_at_target. rewrite Ec.
    destruct (t s _ _) as [[s' d] st]. cbn [rbind]. reflexivity.
  - change (CMD_write =? CMD_write) with true. cbv match.
    unfold master_write, bus_access. rewrite Hbw, Hposted, F1, F2, F3, Hbm, Hba, Hbs.
    cbn [N.eqb negb]. rewrite Hrx. rewrite app_nil_r. unfold data. rewrite Ec.
    unfold at_target, attrs_at_target. rewrite Ec.
    destruct (t s _ _) as [[s' d] st]. cbn [rbind]. reflexivity.
Qed.

Lemma rsp_old h b clk r :
  (r = 0 \/ r = 1 \/ r = 2) ->
  bus_old_layout pr (rsp_in h b clk r) = negb (c_ext_base pr).
Proof.
  intros Hr. unfold bus_old_layout, rsp_in, rsp_init. cbn [i_attr].
  destruct Hr as [->|[->| ->]]; cbn; apply andb_true_r.
Qed.

(** A whole non-posted access. *)
Lemma access_ok s id dev clk1 clk2 buf1 buf2 g a s' d st :
  wf_access g a id dev clk1 -> clk2 < u64 -> a_posted a = false -> g_be g = None ->
  rxbuf_ok buf1 -> rxbuf_ok buf2 -> target_ok t ->
  t s (at_target g) (attrs_at_target a) = (s', d, st) ->
  remote_access pl pr t s id dev clk1 clk2 buf1 buf2 g a =
  Ok (s', match g_cmd g with C_READ => d | _ => g_data g end, status_class st).
Proof.
  intros Hwf Hclk2 Hp Hbe Hb1 Hb2 Ht E.
  destruct (request_half s id dev clk1 buf1 g a clk2 Hwf Hbe Hb1)
    as (bytes & r & W & R & b & e & P & B1 & B2 & B3 & B4 & B5 & Hh & M).
  rewrite Hp in *.
  unfold remote_access. rewrite W. cbn [rbind]. rewrite R. cbn [rbind].
  rewrite M, E. clear M.
  destruct Hwf as (Hc & Ha & Hsw & Hd & Hlen & Hm & Hid & Hdev & Hclk).
  destruct Hh as (H1 & H2 & H3 & H4). cbn [flag_if] in H4.
  assert (Ht' : g_cmd g = C_READ -> length d = length (g_data g) /\ bytes_ok d).
  { intros Ec. destruct (Ht s (at_target g) (attrs_at_target a) s' d st Ec E) as (Ld & Bd).
    split; [|exact Bd]. rewrite Ld. unfold at_target. cbn [g_data]. rewrite Ec. apply repeat_length. }
  assert (Hrr := resp_code_range st).
  set (ri := rsp_in (r_hdr r) b clk2 (resp_code st)).
  set (rdata := match g_cmd g with C_READ => d | _ => [] end).
  assert (Eold : bus_old_layout pr ri = negb (c_ext_base pr)) by (apply rsp_old; exact Hrr).
  assert (Ecmd : i_cmd ri = match g_cmd g with C_READ => CMD_read | _ => CMD_write end)
    by (unfold ri, rsp_in, rsp_init; cbn [i_cmd]; rewrite H1; reflexivity).
  assert (Eflags : i_flags ri = FLAG_response)
    by (unfold ri, rsp_in, rsp_init; cbn [i_flags]; rewrite H4; reflexivity).
  assert (Esize : i_size ri = g_len g) by (unfold ri, rsp_in, rsp_init; cbn [i_size]; exact B1).
  assert (Hcar : carries_data ri = match g_cmd g with C_READ => true | _ => false end).
  { unfold carries_data. rewrite Ecmd, Eflags. destruct (g_cmd g); reflexivity. }
  assert (Hsend : sendable pr (MBus ri rdata [])).
  { split.
    - unfold wf_msg, wf_in. rewrite Ecmd, Eflags, Esize, Hcar.
      unfold ri, rsp_in, rsp_init; cbn [i_id i_dev i_clk i_master i_addr i_attr i_width i_sw i_be_len].
      rewrite B2, B3, B4, B5, H2, H3.
      unfold u32, u64 in *.
      assert (Hat : N.lor 0 (resp_code st * 256) < 1000) by (destruct st; reflexivity).
      unfold rdata.
      repeat match goal with |- _ /\ _ => split end; try lia; try assumption;
        try (destruct (g_cmd g); reflexivity); try reflexivity.
      + destruct Hc as [-> | ->]; [left|right]; reflexivity.
      + destruct (g_cmd g); try reflexivity. rewrite (proj1 (Ht' eq_refl)). reflexivity.
      + destruct (g_cmd g); try constructor. exact (proj2 (Ht' eq_refl)).
      + constructor.
    - cbn [sendable]. unfold ri, rsp_in, rsp_init; cbn [i_master]. rewrite B5.
      split; [lia|]. intros _. split; [reflexivity|lia]. }
  assert (Hj : junk_ok (repeat 0 32)) by (unfold junk_ok; rewrite repeat_length; lia).
  destruct (one_packet pr (repeat 0 32) buf2 [] (MBus ri rdata []) Hsend Hj Hb2)
    as (bytes2 & r2 & W2 & R2 & Se2).
  destruct (wire_enc _ _ _ _ _ _ W2) as (hd & plen & En & ->).
  destruct (enc_shape _ _ _ _ En) as (L1 & L2). rewrite Eold in L1, L2.
  rewrite !app_nil_r in R2.
  destruct Se2 as (Hh2 & b2 & e2 & P2 & _ & _ & _ & _ & _ & _ & Hat2 & Hdp & _).
  destruct Hh2 as (_ & Hid2 & _ & _).
  assert (Hfin : slave_finish id g r2 =
    Ok (match g_cmd g with C_READ => d | _ => g_data g end, status_class st)).
  { unfold slave_finish. rewrite Hid2. unfold ri, rsp_in, rsp_init; cbn [i_id]. rewrite H2, N.eqb_refl.
    cbn [negb]. rewrite P2.
    assert (Hbr : bus_response (b_attr b2) = resp_code st).
    { apply bus_response_code; [exact Hrr|]. rewrite Hat2.
      unfold ri, rsp_in, rsp_init. cbn [i_attr]. reflexivity. }
    rewrite Hbr.
    assert (Est : match resp_code st with 0 => St_OK | 2 => St_ADDRESS | _ => St_GENERIC end
              = status_class st) by (destruct st; reflexivity).
    destruct Hc as [Ec|Ec]; rewrite Ec; cbv match.
    - assert (Ld' := proj1 (Ht' Ec)). unfold rdata in Hdp. rewrite Ec in Hdp. rewrite <- Ld', Hdp, Nat.ltb_irrefl.
      rewrite Hbe, merge_read_none by auto. rewrite Est. reflexivity.
    - rewrite Est. reflexivity. }
  assert (Hret : bus_ret_size ri = match g_cmd g with C_READ => g_len g | _ => 0 end).
  { unfold bus_ret_size. rewrite Ecmd, Eflags, Esize. destruct (g_cmd g); reflexivity. }
  destruct Hc as [Ec|Ec]; rewrite Ec in *; cbv match in *.
  - assert (Ld' := proj1 (Ht' eq_refl)). rewrite En. cbn [rbind].
    assert (Epk : firstn (N.to_nat plen) (overlay 0 hd (overlay (if c_ext_base pr then 80 else 58)%nat d
              (repeat 0 (Nat.max 88 (80 + length (g_data g)))))) = hd ++ rdata).
    { unfold rdata. rewrite Ec. rewrite <- Ld', L2, Hret. unfold g_len. rewrite <- Ld'.
      replace (N.to_nat (N.of_nat (if negb (c_ext_base pr) then 58%nat else 80%nat) + N.of_nat (length d)))
        with ((if c_ext_base pr then 80 else 58) + length d)%nat
        by (destruct (c_ext_base pr); cbn [negb]; lia).
      apply rsp_packet; [|reflexivity|destruct (c_ext_base pr); lia].
      rewrite L1. destruct (c_ext_base pr); reflexivity. }
    rewrite Epk, R2. cbn [rbind]. rewrite Hfin. reflexivity.
  - rewrite En. cbn [rbind].
    assert (Epk : firstn (N.to_nat plen) (overlay 0 hd (repeat 0 88)) = hd ++ rdata).
    { unfold rdata. rewrite Ec. rewrite L2, Hret, N.add_0_r, Nnat.Nat2N.id, app_nil_r, overlay0, <- L1.
      apply firstn_app_exact. }
    rewrite Epk, R2. cbn [rbind]. rewrite Hfin. reflexivity.
Qed.

(** A posted write. *)
Lemma posted_ok s id dev clk1 clk2 buf1 buf2 g a s' d st :
  wf_access g a id dev clk1 -> a_posted a = true -> g_cmd g = C_WRITE -> g_be g = None ->
  rxbuf_ok buf1 ->
  t s (at_target g) (attrs_at_target a) = (s', d, st) ->
  remote_access pl pr t s id dev clk1 clk2 buf1 buf2 g a = Ok (s', g_data g, g_status g).
Proof.
  intros Hwf Hp Hc Hbe Hb1 E.
  destruct (request_half s id dev clk1 buf1 g a clk2 Hwf Hbe Hb1)
    as (bytes & r & W & R & b & e & P & B1 & B2 & B3 & B4 & B5 & Hh & M).
  rewrite Hp in *.
  unfold remote_access. rewrite W. cbn [rbind]. rewrite R. cbn [rbind].
  rewrite M, E, Hc. reflexivity.
Qed.

Lemma be_refused s id dev clk1 clk2 buf1 buf2 g a :
  g_be g <> None -> c_byte_en pl = false ->
  remote_access pl pr t s id dev clk1 clk2 buf1 buf2 g a = Ok (s, g_data g, St_BYTE_ENABLE).
Proof.
  intros H1 H2. unfold remote_access, slave_send.
  destruct (g_be g); [|contradiction]. rewrite H2. reflexivity.
Qed.
End Access.

(** A byte memory as a target (spec-level memory of TlmModel). *)
Lemma mem_read_len m a sw be d : forall i,
  length (mem_read_from m a sw be i d) = length d.
Proof. induction d as [|x d IH]; intros i; cbn; auto. Qed.

Lemma mem_read_buf m a sw d : forall i d',
  length d = length d' -> mem_read_from m a sw None i d = mem_read_from m a sw None i d'.
Proof.
  induction d as [|x d IH]; intros i [|y d'] H; cbn in *; try lia; auto.
  f_equal. apply IH. lia.
Qed.

(** A byte memory that decodes [lo, hi). *)
Definition mem_target (lo hi : N) : target mem := fun m g a =>
  if (lo <=? g_addr g) && (g_addr g + g_len g <=? hi) then
    match g_cmd g with
    | C_READ => (m, mem_read m g, St_OK)
    | C_WRITE => (mem_write m g, g_data g, St_OK)
    | C_IGNORE => (m, g_data g, St_OK)
    end
  else (m, map (fun _ => 0) (g_data g), St_ADDRESS).

(** Memories hold bytes. *)
Definition byte_mem (m : mem) : Prop := forall a, m a < 256.

Lemma mem_read_bytes m a sw d : byte_mem m -> forall i, bytes_ok (mem_read_from m a sw None i d).
Proof. intros H. induction d as [|x d IH]; intros i; constructor; [apply H|apply IH]. Qed.

(** Memory accesses through the wire; [byte_mem] is needed to put the bytes on it. *)
Lemma access_mem pl pr (m : mem) lo hi id dev clk1 clk2 buf1 buf2 g a :
  byte_mem m ->
  wf_access g a id dev clk1 -> clk2 < u64 -> a_posted a = false -> g_be g = None ->
  rxbuf_ok buf1 -> rxbuf_ok buf2 ->
  remote_access pl pr (mem_target lo hi) m id dev clk1 clk2 buf1 buf2 g a =
  Ok (if (lo <=? g_addr g) && (g_addr g + g_len g <=? hi) then
        match g_cmd g with
        | C_READ => (m, mem_read m g, St_OK)
        | _ => (mem_write m g, g_data g, St_OK)
        end
      else (m, match g_cmd g with C_READ => repeat 0 (length (g_data g)) | _ => g_data g end,
            St_ADDRESS)).
Proof.
  intros Hm Hwf Hclk Hp Hbe Hb1 Hb2.
  (* a target that behaves the same but always returns bytes *)
  set (t' := fun (s : mem) g a => let '(s', d, st) := mem_target lo hi s g a in
             (s', match g_cmd g with C_READ => map (fun b => b mod 256) d | _ => d end, st)).
  assert (Ht' : target_ok t').
  { intros s g0 a0 s' d st Ec E. unfold t', mem_target in E. rewrite Ec in E.
    destruct (_ && _) in E; injection E as _ <- _.
    - rewrite map_length. split; [apply mem_read_len|].
      apply Forall_forall. intros x Hx. apply in_map_iff in Hx.
      destruct Hx as (y & <- & _). apply N.mod_lt. discriminate.
    - rewrite !map_length. split; [reflexivity|].
      apply Forall_forall. intros x Hx. apply in_map_iff in Hx.
      destruct Hx as (y & <- & _). apply N.mod_lt. discriminate. }
  assert (Hid : forall l, bytes_ok l -> map (fun b => b mod 256) l = l).
  { intros l Hl. induction Hl as [|x l Hx Hl IH]; cbn; [reflexivity|].
    rewrite IH, N.mod_small by exact Hx. reflexivity. }
  assert (Heq : t' m (at_target g) (attrs_at_target a) = mem_target lo hi m (at_target g) (attrs_at_target a)).
  { unfold t', mem_target. destruct (_ && _).
    - destruct (g_cmd (at_target g)); try reflexivity.
      rewrite Hid; [reflexivity|]. apply mem_read_bytes, Hm.
    - destruct (g_cmd (at_target g)); try reflexivity.
      rewrite Hid; [reflexivity|]. apply Forall_forall. intros x Hx.
      apply in_map_iff in Hx. destruct Hx as (y & <- & _). reflexivity. }
  assert (Hlen : g_len (at_target g) = g_len g).
  { unfold g_len, at_target. cbn [g_data]. destruct (g_cmd g); try reflexivity.
    rewrite repeat_length. reflexivity. }
  assert (Hc := proj1 Hwf).
  assert (Hsame : forall tt, tt m (at_target g) (attrs_at_target a)
                    = mem_target lo hi m (at_target g) (attrs_at_target a) ->
     remote_access pl pr tt m id dev clk1 clk2 buf1 buf2 g a =
     remote_access pl pr (mem_target lo hi) m id dev clk1 clk2 buf1 buf2 g a).
  { intros tt E. unfold remote_access.
    destruct (request_half tt pl pr m id dev clk1 buf1 g a clk2 Hwf Hbe Hb1)
      as (bytes & r & W & R & b & e & P & B1 & B2 & B3 & B4 & B5 & Hh & M).
    destruct (request_half (mem_target lo hi) pl pr m id dev clk1 buf1 g a clk2 Hwf Hbe Hb1)
      as (bytes' & r' & W' & R' & b' & e' & P' & B1' & B2' & B3' & B4' & B5' & Hh' & M').
    rewrite W in *. rewrite Hp in *. apply Ok_inj in W'. injection W' as <-.
    cbn [rbind]. rewrite R in *. cbn [rbind]. apply Ok_pair in R'. destruct R' as (-> & _).
    rewrite P in P'. injection P' as <- <-.
    rewrite M, M', E. reflexivity. }
  rewrite <- (Hsame t' Heq).
  destruct (mem_target lo hi m (at_target g) (attrs_at_target a)) as [[s' d] st] eqn:E.
  rewrite (access_ok t' pl pr m id dev clk1 clk2 buf1 buf2 g a s' d st); auto.
  unfold mem_target in E. rewrite Hlen in E. change (g_addr (at_target g)) with (g_addr g) in E.
  change (g_cmd (at_target g)) with (g_cmd g) in E.
  destruct (_ && _) in *.
  - destruct Hc as [Ec|Ec]; rewrite Ec in *; injection E as <- <- <-; cbn [status_class].
    + do 3 f_equal. unfold mem_read, at_target. rewrite Ec, Hbe. cbn [g_be g_addr g_sw g_data].
      apply mem_read_buf. apply repeat_length.
    + do 3 f_equal. unfold mem_write, at_target. rewrite Ec, Hbe. reflexivity.
  - injection E as <- <- <-. cbn [status_class]. do 3 f_equal.
    unfold at_target. cbn [g_data]. destruct Hc as [Ec|Ec]; rewrite Ec; [|reflexivity].
    clear. induction (length (g_data g)); cbn; f_equal; auto.
Qed.

Lemma resp_field attr : bus_response attr = (attr / 256) mod 16.
Proof.
  unfold bus_response, RESP_MASK, RESP_SHIFT.
  change 256 with (2 ^ 8). change 16 with (2 ^ 4).
  rewrite <- N.shiftr_div_pow2, <- N.land_ones.
  apply N.bits_inj. intros k. rewrite N.shiftr_spec', !N.land_spec, N.shiftr_spec'.
  f_equal. change 3840 with (N.shiftl (N.ones 4) 8).
  rewrite N.shiftl_spec_high' by lia. f_equal. lia.
Qed.

Lemma finish_status id g r b e d st :
  r_pl r = PBus b e -> slave_finish id g r = Ok (d, st) ->
  (st = St_OK <-> (b_attr b / 256) mod 16 = 0) /\
  (st = St_ADDRESS <-> (b_attr b / 256) mod 16 = 2) /\
  (st = St_OK \/ st = St_ADDRESS \/ st = St_GENERIC).
Proof.
  intros P H. unfold slave_finish in H. destruct (negb _); [discriminate|].
  rewrite P in H.
  assert (Hst : st = match bus_response (b_attr b) with
              | 0 => St_OK | 2 => St_ADDRESS | _ => St_GENERIC end).
  { destruct (g_cmd g); [destruct (_ <? _)%nat; [discriminate|]| |];
      injection H as _ <-; reflexivity. }
  rewrite resp_field in Hst. set (x := (b_attr b / 256) mod 16) in *.
  destruct (N.eq_dec x 0) as [E|E]; [rewrite E in *; subst st; cbn; intuition discriminate|].
  destruct (N.eq_dec x 2) as [E2|E2]; [rewrite E2 in *; subst st; cbn; intuition discriminate|].
  assert (st = St_GENERIC).
  { rewrite Hst. destruct x as [|[p|[p|p|]|]]; try reflexivity; contradiction. }
  clear Hst. subst st. split; [split; intros; [discriminate|contradiction]|].
  split; [split; intros; [discriminate|contradiction]|]. auto.
Qed.
