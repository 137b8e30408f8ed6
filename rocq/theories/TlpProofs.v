(** Proofs about the TLP bridge. *)
From Verif Require Import Base BaseFacts LeFacts TlmModel TlmSpec TlmFacts TlpModel TlpSpec.
Open Scope N_scope.
Ltac Zify.zify_post_hook ::= Z.to_euclidean_division_equations.


Lemma lor_shift a b k : b < 2 ^ k -> N.lor (N.shiftl a k) b = a * 2 ^ k + b.
Proof.
  intro H.
  assert (Z : N.land (N.shiftl a k) b = 0).
  { apply N.bits_inj. intro i. rewrite N.land_spec, N.bits_0.
    destruct (N.lt_ge_cases i k) as [L|L].
    - rewrite N.shiftl_spec_low by exact L. reflexivity.
    - destruct (N.eq_dec b 0) as [->|Hb]; [rewrite N.bits_0; apply andb_false_r|].
      rewrite (N.bits_above_log2 b i); [apply andb_false_r|].
      apply N.lt_le_trans with k; [apply N.log2_lt_pow2; lia|exact L]. }
  rewrite <- N.lxor_lor by exact Z. rewrite <- N.add_nocarry_lxor by exact Z.
  now rewrite N.shiftl_mul_pow2.
Qed.

Lemma fields_nil : fields [] = Ok 0. Proof. reflexivity. Qed.
Lemma fields_cons s w v l y : v < 2 ^ w -> fields l = Ok y -> y < 2 ^ s ->
  fields ((s, w, v) :: l) = Ok (v * 2 ^ s + y).
Proof.
  intros Hv Hl Hy. cbn [fields]. unfold set_field.
  replace (v <? 2 ^ w) with true by (symmetry; now apply N.ltb_lt).
  cbn [rbind]. rewrite Hl. cbn [rbind]. rewrite lor_shift by exact Hy. reflexivity.
Qed.
Lemma get_field_div s w x : get_field s w x = x / 2 ^ s mod 2 ^ w.
Proof. unfold get_field. now rewrite N.shiftr_div_pow2. Qed.

Ltac pows := change (2 ^ 32) with 4294967296 in *; change (2 ^ 30) with 1073741824 in *;
  change (2 ^ 29) with 536870912 in *; change (2 ^ 24) with 16777216 in *;
  change (2 ^ 23) with 8388608 in *; change (2 ^ 20) with 1048576 in *;
  change (2 ^ 19) with 524288 in *; change (2 ^ 16) with 65536 in *;
  change (2 ^ 15) with 32768 in *; change (2 ^ 13) with 8192 in *;
  change (2 ^ 12) with 4096 in *; change (2 ^ 10) with 1024 in *; change (2 ^ 9) with 512 in *;
  change (2 ^ 8) with 256 in *; change (2 ^ 7) with 128 in *; change (2 ^ 6) with 64 in *;
  change (2 ^ 5) with 32 in *; change (2 ^ 4) with 16 in *; change (2 ^ 3) with 8 in *;
  change (2 ^ 2) with 4 in *; change (2 ^ 1) with 2 in *; change (2 ^ 0) with 1 in *;
  change u32 with 4294967296 in *; change u64 with 18446744073709551616 in *.
Ltac field := repeat match goal with
  | |- fields ((_, _, _) :: _) = _ => eapply fields_cons
  | |- fields [] = _ => apply fields_nil
  end; pows; try lia.

Lemma word0_ok f t l : f < 8 -> t < 32 -> l < 1024 ->
  word0 f t l = Ok (f * 536870912 + t * 16777216 + l).
Proof.
  intros. unfold word0. erewrite fields_cons; [| |eapply fields_cons; [| |]|]; field.
  f_equal. lia.
Qed.

(** ** Bytes and words *)
Lemma wire_length ws : length (wire ws) = (4 * length ws)%nat.
Proof. induction ws; [reflexivity|]. cbn [wire flat_map]. rewrite app_length, be_enc_length. fold (wire ws). cbn [length]. lia. Qed.
Lemma wire_app a b : wire (a ++ b) = wire a ++ wire b.
Proof. apply flat_map_app. Qed.
Lemma word_at_wire ws i : (i < length ws)%nat -> nth i ws 0 < u32 -> word_at (wire ws) i = nth i ws 0.
Proof.
  revert i. induction ws as [|w ws IH]; intros i Hi Hb; cbn [length] in Hi; [lia|].
  unfold word_at. cbn [wire flat_map]. destruct i as [|i].
  - cbn [Nat.mul nth] in *. rewrite slice_here_enc, be_dec_enc. change (256 ^ N.of_nat 4) with u32. apply N.mod_small. exact Hb.
  - rewrite slice_enc_skip by lia. replace (4 * S i - 4)%nat with (4 * i)%nat by lia.
    cbn [nth] in *. apply IH; [lia|exact Hb].
Qed.

Lemma pack_wire l n : length l = (4 * n)%nat -> bytes_ok l -> wire (pack l) = l.
Proof.
  revert l. induction n as [|n IH]; intros l L B.
  - destruct l; [reflexivity|cbn in L; lia].
  - destruct l as [|a [|b [|c [|d l]]]]; cbn [length] in L; try lia.
    inversion B as [|? ? Ba B1]; subst. inversion B1 as [|? ? Bb B2]; subst.
    inversion B2 as [|? ? Bc B3]; subst. inversion B3 as [|? ? Bd B4]; subst.
    unfold is_byte in *. cbn [pack wire flat_map]. fold (wire (pack l)). rewrite IH by (auto; lia).
    assert (E : N.lor (N.shiftl a 24) (N.lor (N.shiftl b 16) (N.lor (N.shiftl c 8) d)) = be_dec [a; b; c; d]).
    { rewrite (lor_shift c) by (pows; lia). rewrite (lor_shift b) by (pows; lia). rewrite (lor_shift a) by (pows; lia).
      unfold be_dec. cbn [be_dec_acc]. pows. lia. }
    rewrite E. change 4%nat with (length [a; b; c; d]) at 1. rewrite be_enc_dec by (repeat constructor; assumption).
    reflexivity.
Qed.
Lemma pack_length l n : length l = (4 * n)%nat -> length (pack l) = n.
Proof.
  revert l. induction n as [|n IH]; intros l L.
  - destruct l; [reflexivity|cbn in L; lia].
  - destruct l as [|a [|b [|c [|d l]]]]; cbn [length] in L; try lia. cbn [pack length]. rewrite IH by lia. reflexivity.
Qed.

(** ** Requests for whole words *)
Definition whole (q : req) : Prop :=
  g_addr (q_gp q) < u64 /\ g_addr (q_gp q) mod 4 = 0 /\ g_len (q_gp q) mod 4 = 0 /\
  0 < g_len (q_gp q) <= 4096 /\ g_be_len (q_gp q) = 0 /\
  q_master q < 65536 /\ q_tag q < 256.

Lemma whole_dw q : whole q -> dw_len (q_gp q) = g_len (q_gp q) / 4.
Proof. intros (_ & _ & M & _). unfold dw_len. rewrite M. cbn. lia. Qed.

Definition lastbe (dw : N) : N := if dw <=? 1 then 0 else 15.
Definition w1_of (m t l f : N) : N := m * 65536 + t * 256 + l * 16 + f.
Definition hi_of (a : N) : list N := if a <? u32 then [] else [a / u32].
Definition fmt_of (wr : bool) (a : N) : N := (if a <? u32 then 0 else 1) + (if wr then 2 else 0).

Lemma mem_words_gen (q : req) lb :
  g_addr (q_gp q) < u64 -> dw_len (q_gp q) <= 1024 -> last_be (q_gp q) = Ok lb -> lb < 16 ->
  first_be (q_gp q) < 16 -> q_master q < 65536 -> q_tag q < 256 ->
  mem_words q = rbind (if is_wr (q_gp q) then mem_data (q_gp q) else Ok []) (fun data =>
    Ok ([fmt_of (is_wr (q_gp q)) (g_addr (q_gp q)) * 536870912 + dw_len (q_gp q) mod 1024;
         w1_of (q_master q) (q_tag q) lb (first_be (q_gp q))] ++
        hi_of (g_addr (q_gp q)) ++ [g_addr (q_gp q) mod u32 / 4 * 4] ++ data)).
Proof.
  intros A D L Lb F M T. unfold mem_words. rewrite N.shiftr_div_pow2. rewrite L.
  assert (Eb : negb (g_addr (q_gp q) / 2 ^ 32 =? 0) = negb (g_addr (q_gp q) <? u32)).
  { f_equal. pows. destruct (N.ltb_spec (g_addr (q_gp q)) 4294967296); [apply N.eqb_eq|apply N.eqb_neq]; lia. }
  rewrite Eb.
  replace (if dw_len (q_gp q) =? MAX_DW then 0 else dw_len (q_gp q)) with (dw_len (q_gp q) mod 1024).
  2:{ unfold MAX_DW. destruct (N.eqb_spec (dw_len (q_gp q)) 1024) as [->|E]; [reflexivity|]. apply N.mod_small. lia. }
  set (big := negb (g_addr (q_gp q) <? u32)).
  rewrite word0_ok; [|destruct big, (is_wr (q_gp q)); cbn; lia|reflexivity|apply N.mod_lt; discriminate].
  cbn [rbind].
  assert (E1 : fields [(16, 16, q_master q); (8, 8, q_tag q); (4, 4, lb); (0, 4, first_be (q_gp q))] =
               Ok (w1_of (q_master q) (q_tag q) lb (first_be (q_gp q)))).
  { pose proof (fields_cons 0 4 (first_be (q_gp q)) [] 0 F fields_nil eq_refl) as F1.
    pose proof (fields_cons 4 4 lb _ _ Lb F1 ltac:(pows; lia)) as F2.
    pose proof (fields_cons 8 8 (q_tag q) _ _ T F2 ltac:(pows; lia)) as F3.
    rewrite (fields_cons 16 16 (q_master q) _ _ M F3 ltac:(pows; lia)). pows.
    unfold w1_of. f_equal. lia. }
  rewrite E1. cbn [rbind].
  assert (E2 : fields [(2, 30, get_field 2 30 (g_addr (q_gp q) mod u32))] = Ok (g_addr (q_gp q) mod u32 / 4 * 4)).
  { rewrite get_field_div. erewrite fields_cons; [| |apply fields_nil|]; field.
    f_equal. lia. }
  rewrite E2. cbn [rbind].
  destruct (if is_wr (q_gp q) then mem_data (q_gp q) else Ok []); try reflexivity. cbn [rbind].
  unfold Type_MRdWr, fmt_of, hi_of, big.
  destruct (g_addr (q_gp q) <? u32), (is_wr (q_gp q)); cbn [negb app]; rewrite N.mul_0_l, N.add_0_r; reflexivity.
Qed.

Lemma whole_last q : whole q -> last_be (q_gp q) = Ok (lastbe (dw_len (q_gp q))).
Proof.
  intros (_ & _ & _ & _ & B & _). unfold last_be, lastbe, has_be. rewrite B.
  destruct (dw_len (q_gp q) <=? 1); reflexivity.
Qed.
Lemma whole_first q : whole q -> first_be (q_gp q) = 15.
Proof.
  intros W. pose proof (whole_dw q W) as D. destruct W as (_ & _ & M & L & B & _). unfold first_be, has_be. rewrite B, D.
  destruct (N.eqb_spec (g_len (q_gp q) / 4) 0); [lia|reflexivity].
Qed.
Lemma lastbe_lt n : lastbe n < 16.
Proof. unfold lastbe. destruct (n <=? 1); reflexivity. Qed.

Lemma mem_words_whole q : whole q ->
  mem_words q = Ok ([fmt_of (is_wr (q_gp q)) (g_addr (q_gp q)) * 536870912 + (g_len (q_gp q) / 4) mod 1024;
         w1_of (q_master q) (q_tag q) (lastbe (g_len (q_gp q) / 4)) 15] ++
        hi_of (g_addr (q_gp q)) ++ [g_addr (q_gp q) mod u32] ++
        (if is_wr (q_gp q) then pack (g_data (q_gp q)) else [])).
Proof.
  intros W. pose proof (whole_dw q W) as D. pose proof W as (A & A4 & M & L & B & Mm & T).
  rewrite (mem_words_gen q (lastbe (dw_len (q_gp q)))); auto.
  - rewrite D, (whole_first q W).
    assert (Ea : g_addr (q_gp q) mod u32 / 4 * 4 = g_addr (q_gp q) mod u32) by (pows; lia).
    rewrite Ea. unfold mem_data. rewrite M. change (0 =? 0) with true. rewrite andb_false_r.
    destruct (is_wr (q_gp q)); reflexivity.
  - rewrite D. lia.
  - apply whole_last. exact W.
  - apply lastbe_lt.
  - rewrite (whole_first q W). reflexivity.
Qed.

(** ** Layout *)
Lemma be_enc4 a b c d : a < 256 -> b < 256 -> c < 256 -> d < 256 ->
  be_enc 4 (a * 16777216 + b * 65536 + c * 256 + d) = [a; b; c; d].
Proof.
  intros. assert (E : a * 16777216 + b * 65536 + c * 256 + d = be_dec [a; b; c; d]).
  { unfold be_dec. cbn [be_dec_acc]. lia. }
  rewrite E. change 4%nat with (length [a; b; c; d]) at 1. apply be_enc_dec. repeat constructor; assumption.
Qed.
Lemma be_enc2 v : v < 65536 -> be_enc 2 v = [v / 256; v mod 256].
Proof.
  intro H. cbn [be_enc]. change (256 ^ N.of_nat 1) with 256. change (256 ^ N.of_nat 0) with 1.
  rewrite N.div_1_r. f_equal. apply N.mod_small. apply N.div_lt_upper_bound; lia.
Qed.
Lemma be_enc8 v : be_enc 8 v = be_enc 4 (v / u32) ++ be_enc 4 v.
Proof.
  cbn [be_enc app]. rewrite !N.div_div by discriminate.
  repeat match goal with |- context [u32 * 256 ^ N.of_nat ?k] => let x := eval vm_compute in (u32 * 256 ^ N.of_nat k) in change (u32 * 256 ^ N.of_nat k) with x end.
  repeat match goal with |- context [256 ^ N.of_nat ?k] => let x := eval vm_compute in (256 ^ N.of_nat k) in change (256 ^ N.of_nat k) with x end.
  reflexivity.
Qed.
Lemma be_enc_mod k v : be_enc k (v mod 256 ^ N.of_nat k) = be_enc k v.
Proof.
  assert (G : forall j, (j <= k)%nat -> be_enc j (v mod 256 ^ N.of_nat k) = be_enc j v); [|apply G; lia].
  induction j as [|j IH]; intro H; [reflexivity|]. cbn [be_enc]. rewrite IH by lia. f_equal.
  pose proof (pow256_pos j). pose proof (pow256_pos (k - S j)).
  assert (E : 256 ^ N.of_nat k = 256 ^ N.of_nat j * (256 * 256 ^ N.of_nat (k - S j))).
  { rewrite <- pow256_S, <- N.pow_add_r. f_equal. lia. }
  rewrite E. set (p := 256 ^ N.of_nat j) in *. set (r := 256 ^ N.of_nat (k - S j)) in *.
  rewrite N.mod_mul_r by lia.
  replace (v mod p + p * (v / p mod (256 * r))) with ((v / p mod (256 * r)) * p + v mod p) by (rewrite N.mul_comm; apply N.add_comm).
  rewrite N.div_add_l by lia. rewrite (N.div_small (v mod p)) by (apply N.mod_lt; lia).
  rewrite N.add_0_r, N.mod_mul_r by lia.
  replace (v / p mod 256 + 256 * (v / p / 256 mod r)) with (v / p mod 256 + (v / p / 256 mod r) * 256) by (f_equal; apply N.mul_comm).
  rewrite N.mod_add by discriminate. apply N.mod_mod. discriminate.
Qed.

Lemma mem_layout q : whole q -> bytes_ok (g_data (q_gp q)) ->
  rmap wire (mem_words q) =
  Ok (mem_packet (is_wr (q_gp q)) (q_master q) (q_tag q) (lastbe (g_len (q_gp q) / 4)) 15
        (g_addr (q_gp q)) (g_len (q_gp q) / 4) (if is_wr (q_gp q) then g_data (q_gp q) else [])).
Proof.
  intros W B. pose proof W as (A & A4 & M & L & Be & Mm & T). rewrite (mem_words_whole q W). cbn [rmap rbind].
  f_equal. rewrite !wire_app. unfold mem_packet.
  set (a := g_addr (q_gp q)) in *. set (n := g_len (q_gp q)) in *. change (2 ^ 32) with u32.
  assert (E0 : wire [fmt_of (is_wr (q_gp q)) a * 536870912 + (n / 4) mod 1024;
                     w1_of (q_master q) (q_tag q) (lastbe (n / 4)) 15] =
    [(if a <? u32 then 0 else 32) + (if is_wr (q_gp q) then 64 else 0); 0] ++ len_bytes (n / 4) ++
    be_enc 2 (q_master q) ++ [q_tag q; 16 * lastbe (n / 4) + 15]).
  { cbn [wire flat_map app]. rewrite app_nil_r. unfold len_bytes.
    assert (Hl : n / 4 mod 1024 < 1024) by (apply N.mod_lt; discriminate).
    set (l := n / 4 mod 1024) in *. clearbody l.
    assert (Hf : fmt_of (is_wr (q_gp q)) a * 536870912 + l =
      ((if a <? u32 then 0 else 32) + (if is_wr (q_gp q) then 64 else 0)) * 16777216 + 0 * 65536 + l / 256 * 256 + l mod 256).
    { unfold fmt_of. destruct (a <? u32), (is_wr (q_gp q)); lia. }
    rewrite Hf, be_enc4; [|destruct (a <? u32), (is_wr (q_gp q)); reflexivity|reflexivity|lia|lia].
    rewrite (be_enc2 l) by lia. rewrite (be_enc2 (q_master q)) by lia.
    assert (Hw : w1_of (q_master q) (q_tag q) (lastbe (n / 4)) 15 =
      q_master q / 256 * 16777216 + q_master q mod 256 * 65536 + q_tag q * 256 + (16 * lastbe (n / 4) + 15)).
    { unfold w1_of. lia. }
    rewrite Hw, be_enc4; [reflexivity|lia|lia|lia|]. pose proof (lastbe_lt (n / 4)). lia. }
  assert (Ea : wire (hi_of a) ++ wire [a mod u32] = if a <? u32 then be_enc 4 a else be_enc 8 a).
  { unfold hi_of. cbn [wire flat_map]. rewrite app_nil_r.
    pose proof (be_enc_mod 4 a) as Hm. change (256 ^ N.of_nat 4) with u32 in Hm. rewrite Hm.
    destruct (N.ltb_spec a u32); [reflexivity|]. cbn [wire flat_map]. rewrite app_nil_r. symmetry. apply be_enc8. }
  assert (Ed : wire (if is_wr (q_gp q) then pack (g_data (q_gp q)) else []) = if is_wr (q_gp q) then g_data (q_gp q) else []).
  { destruct (is_wr (q_gp q)); [|reflexivity]. apply (pack_wire _ (N.to_nat (n / 4))); [|exact B].
    unfold n, g_len in *. lia. }
  rewrite E0, Ed, <- Ea, <- !app_assoc. reflexivity.
Qed.

(** ** The receiver *)
Lemma word_at_here w ws : w < u32 -> word_at (wire (w :: ws)) 0 = w.
Proof. intro H. exact (word_at_wire (w :: ws) 0 ltac:(cbn [length]; lia) H). Qed.
Lemma word_at_next w ws i : word_at (wire (w :: ws)) (S i) = word_at (wire ws) i.
Proof.
  unfold word_at. cbn [wire flat_map]. rewrite slice_enc_skip by lia.
  replace (4 * S i - 4)%nat with (4 * i)%nat by lia. reflexivity.
Qed.
Lemma slice_next w ws i n : slice (4 * S i) n (wire (w :: ws)) = slice (4 * i) n (wire ws).
Proof. cbn [wire flat_map]. rewrite slice_enc_skip by lia. f_equal. lia. Qed.

Definition rx_dw (w0 : N) : N := if get_length w0 =? 0 then MAX_DW else get_length w0.
Lemma rx_mem3 w0 w1 wa dat : w0 < u32 -> w1 < u32 -> wa < u32 -> get_fmt w0 = 0 \/ get_fmt w0 = 2 ->
  rx_mem (wire (w0 :: w1 :: wa :: dat)) =
  if get_fmt w0 =? 2
  then if N.of_nat (length dat) <? rx_dw w0 then AssertFail
       else Ok (mkRx [w0; w1; wa] (rx_dw w0) (Some (slice 0 (N.to_nat (4 * rx_dw w0)) (wire dat))))
  else Ok (mkRx [w0; w1; wa] (rx_dw w0) None).
Proof.
  intros B0 B1 B2 F. unfold rx_mem. rewrite wire_length.
  rewrite !word_at_next, !word_at_here by assumption.
  replace (Nat.ltb (4 * length (w0 :: w1 :: wa :: dat)) 12) with false by (symmetry; apply Nat.ltb_ge; cbn [length]; lia).
  fold (rx_dw w0). cbn [length].
  destruct F as [E|E]; rewrite E; cbn [N.eqb Pos.eqb orb andb]; [reflexivity|]. cbn [length].
  change (4 * 3)%nat with (4 * 3)%nat. rewrite (slice_next w0 _ 2), (slice_next w1 _ 1), (slice_next wa _ 0).
  destruct (N.ltb_spec (N.of_nat (length dat)) (rx_dw w0)) as [L|L].
  - replace (Nat.ltb _ _) with true; [reflexivity|]. symmetry. apply Nat.ltb_lt. lia.
  - replace (Nat.ltb _ _) with false; [reflexivity|]. symmetry. apply Nat.ltb_ge. lia.
Qed.
Lemma rx_mem4 w0 w1 wh wa dat : w0 < u32 -> w1 < u32 -> wh < u32 -> wa < u32 -> get_fmt w0 = 1 \/ get_fmt w0 = 3 ->
  rx_mem (wire (w0 :: w1 :: wh :: wa :: dat)) =
  if get_fmt w0 =? 3
  then if N.of_nat (length dat) <? rx_dw w0 then AssertFail
       else Ok (mkRx [w0; w1; wh; wa] (rx_dw w0) (Some (slice 0 (N.to_nat (4 * rx_dw w0)) (wire dat))))
  else Ok (mkRx [w0; w1; wh; wa] (rx_dw w0) None).
Proof.
  intros B0 B1 B2 B3 F. unfold rx_mem. rewrite wire_length.
  rewrite !word_at_next, !word_at_here by assumption.
  replace (Nat.ltb (4 * length (w0 :: w1 :: wh :: wa :: dat)) 12) with false by (symmetry; apply Nat.ltb_ge; cbn [length]; lia).
  replace (Nat.ltb (4 * length (w0 :: w1 :: wh :: wa :: dat)) 16) with false by (symmetry; apply Nat.ltb_ge; cbn [length]; lia).
  fold (rx_dw w0). cbn [length].
  destruct F as [E|E]; rewrite E; cbn [N.eqb Pos.eqb orb andb app length]; [reflexivity|].
  rewrite (slice_next w0 _ 3), (slice_next w1 _ 2), (slice_next wh _ 1), (slice_next wa _ 0).
  destruct (N.ltb_spec (N.of_nat (length dat)) (rx_dw w0)) as [L|L].
  - replace (Nat.ltb _ _) with true; [reflexivity|]. symmetry. apply Nat.ltb_lt. lia.
  - replace (Nat.ltb _ _) with false; [reflexivity|]. symmetry. apply Nat.ltb_ge. lia.
Qed.

Lemma fmt_w0 f l : f < 8 -> l < 1024 -> get_fmt (f * 536870912 + l) = f.
Proof. intros. unfold get_fmt. rewrite get_field_div. pows. lia. Qed.
Lemma type_w0 f l : f < 8 -> l < 1024 -> get_type (f * 536870912 + l) = 0.
Proof. intros. unfold get_type. rewrite get_field_div. pows. lia. Qed.
Lemma length_w0 f l : f < 8 -> l < 1024 -> get_length (f * 536870912 + l) = l.
Proof. intros. unfold get_length. rewrite get_field_div. pows. lia. Qed.
Lemma t9_w0 f l : f < 8 -> l < 1024 -> get_t9 (f * 536870912 + l) = 0.
Proof. intros. unfold get_t9. rewrite get_field_div. pows. lia. Qed.
Lemma t8_w0 f l : f < 8 -> l < 1024 -> get_t8 (f * 536870912 + l) = 0.
Proof. intros. unfold get_t8. rewrite get_field_div. pows. lia. Qed.
Lemma fmt_of_lt wr a : fmt_of wr a < 4.
Proof. unfold fmt_of. destruct (a <? u32), wr; reflexivity. Qed.
Lemma w1_lt m t l f : m < 65536 -> t < 256 -> l < 16 -> f < 16 -> w1_of m t l f < u32.
Proof. intros. unfold w1_of. pows. lia. Qed.
Lemma w1_master m t l f : t < 256 -> m < 65536 -> l < 16 -> f < 16 -> get_field 16 16 (w1_of m t l f) = m.
Proof. intros. unfold w1_of. rewrite get_field_div. pows. lia. Qed.
Lemma w1_tag m t l f : t < 256 -> l < 16 -> f < 16 -> get_field 8 8 (w1_of m t l f) = t.
Proof. intros. unfold w1_of. rewrite get_field_div. pows. lia. Qed.

(** What the receiver makes of a request built as above. *)
Definition built (wr : bool) (a dw m t lb fb : N) (dat : list N) : list N :=
  [fmt_of wr a * 536870912 + dw mod 1024; w1_of m t lb fb] ++ hi_of a ++ [a mod u32 / 4 * 4] ++ dat.

Lemma rx_built wr a dw m t lb fb dat :
  a < u64 -> 0 < dw <= 1024 -> m < 65536 -> t < 256 -> lb < 16 -> fb < 16 ->
  (wr = true -> N.of_nat (length dat) = dw) ->
  exists x, rx_mem (wire (built wr a dw m t lb fb dat)) = Ok x /\
    x_dw x = dw /\ rx_is_read x = negb wr /\ rx_addr x = a / 4 * 4 /\
    rx_master x = m /\ rx_tag x = t /\
    x_data x = if wr then Some (wire dat) else None.
Proof.
  intros A D M T Lb Fb Ld. unfold built.
  set (w0 := fmt_of wr a * 536870912 + dw mod 1024).
  assert (Hm : dw mod 1024 < 1024) by (apply N.mod_lt; discriminate).
  pose proof (fmt_of_lt wr a) as Hf.
  assert (B0 : w0 < u32) by (unfold w0; pows; lia).
  assert (B1 : w1_of m t lb fb < u32) by (apply w1_lt; assumption).
  assert (Ef : get_fmt w0 = fmt_of wr a) by (apply fmt_w0; lia).
  assert (Ed : rx_dw w0 = dw).
  { unfold rx_dw, w0. rewrite length_w0 by lia. unfold MAX_DW. destruct (N.eqb_spec (dw mod 1024) 0); lia. }
  clearbody w0.
  assert (Bw : a mod u32 / 4 * 4 < u32) by (pows; lia).
  assert (Sl : wr = true -> slice 0 (N.to_nat (4 * dw)) (wire dat) = wire dat).
  { intro W. unfold slice. change (skipn 0 (wire dat)) with (wire dat). apply firstn_all2. rewrite wire_length. specialize (Ld W). lia. }
  assert (Ew : get_field 2 30 (a mod u32 / 4 * 4) = a mod u32 / 4) by (rewrite get_field_div; pows; lia).
  unfold hi_of. destruct (N.ltb_spec a u32) as [La|La].
  - cbn [app]. rewrite rx_mem3; auto.
    2:{ rewrite Ef. unfold fmt_of. replace (a <? u32) with true by (symmetry; now apply N.ltb_lt). destruct wr; auto. }
    assert (Ef' : get_fmt w0 = if wr then 2 else 0).
    { rewrite Ef. unfold fmt_of. replace (a <? u32) with true by (symmetry; now apply N.ltb_lt). destruct wr; auto. }
    rewrite Ed. exists (mkRx [w0; w1_of m t lb fb; a mod u32 / 4 * 4] dw (if wr then Some (wire dat) else None)).
    split; [|unfold rx_is_read, rx_addr, rx_master, rx_tag; cbn [x_dw x_words nth x_data]; rewrite Ef', w1_master, w1_tag by assumption;
      split; [reflexivity|]; split; [destruct wr; reflexivity|]; split; [|auto]].
    + rewrite Ef'. destruct wr; cbn [N.eqb Pos.eqb]; [|reflexivity].
      rewrite Ld by reflexivity. rewrite N.ltb_irrefl, Sl by reflexivity. reflexivity.
    + replace (((if wr then 2 else 0) =? 3) || ((if wr then 2 else 0) =? 1))%bool with false by (destruct wr; reflexivity).
      rewrite Ew, N.shiftl_mul_pow2. pows. lia.
  - cbn [app]. assert (Bh : a / u32 < u32) by (pows; lia). rewrite rx_mem4; auto.
    2:{ rewrite Ef. unfold fmt_of. replace (a <? u32) with false by (symmetry; now apply N.ltb_ge). destruct wr; auto. }
    assert (Ef' : get_fmt w0 = if wr then 3 else 1).
    { rewrite Ef. unfold fmt_of. replace (a <? u32) with false by (symmetry; now apply N.ltb_ge). destruct wr; auto. }
    rewrite Ed. exists (mkRx [w0; w1_of m t lb fb; a / u32; a mod u32 / 4 * 4] dw (if wr then Some (wire dat) else None)).
    split; [|unfold rx_is_read, rx_addr, rx_master, rx_tag; cbn [x_dw x_words nth x_data]; rewrite Ef', w1_master, w1_tag by assumption;
      split; [reflexivity|]; split; [destruct wr; reflexivity|]; split; [|auto]].
    + rewrite Ef'. destruct wr; cbn [N.eqb Pos.eqb]; [|reflexivity].
      rewrite Ld by reflexivity. rewrite N.ltb_irrefl, Sl by reflexivity. reflexivity.
    + replace (((if wr then 3 else 1) =? 3) || ((if wr then 3 else 1) =? 1))%bool with true by (destruct wr; reflexivity).
      rewrite Ew. rewrite (N.shiftl_mul_pow2 (a mod u32 / 4)). rewrite lor_shift; [|pows; lia]. pows. lia.
Qed.

Lemma built_whole q : whole q ->
  mem_words q = Ok (built (is_wr (q_gp q)) (g_addr (q_gp q)) (g_len (q_gp q) / 4) (q_master q) (q_tag q)
    (lastbe (g_len (q_gp q) / 4)) 15 (if is_wr (q_gp q) then pack (g_data (q_gp q)) else [])).
Proof.
  intro W. rewrite (mem_words_whole q W). pose proof W as (A & A4 & _). unfold built.
  replace (g_addr (q_gp q) mod u32 / 4 * 4) with (g_addr (q_gp q) mod u32) by (pows; lia). reflexivity.
Qed.

(** ** Writes *)
Lemma trip_write {S} restored stack (t : target S) s q :
  whole q -> bytes_ok (g_data (q_gp q)) -> is_wr (q_gp q) = true ->
  mem_trip restored stack t s q =
  let '(s', (_, st)) := t s (mkGp C_WRITE (g_addr (q_gp q)) (g_data (q_gp q)) None (g_len (q_gp q)) St_INCOMPLETE) in
  if status_eqb st St_OK then Ok (s', (g_data (q_gp q), St_OK)) else AssertFail.
Proof.
  intros W B Wr. unfold mem_trip. rewrite (built_whole q W), Wr. cbn [rbind].
  pose proof W as (A & A4 & M & L & Be & Mm & T).
  assert (Lp : length (g_data (q_gp q)) = (4 * N.to_nat (g_len (q_gp q) / 4))%nat) by (unfold g_len in *; lia).
  destruct (rx_built true (g_addr (q_gp q)) (g_len (q_gp q) / 4) (q_master q) (q_tag q)
     (lastbe (g_len (q_gp q) / 4)) 15 (pack (g_data (q_gp q)))) as [x [E [Ed [Er [Ea [Em [Et Ex]]]]]]]; auto.
  - lia.
  - apply lastbe_lt.
  - reflexivity.
  - intros _. rewrite (pack_length _ _ Lp). lia.
  - rewrite E. cbn [rbind]. unfold dma_payload. rewrite Er, Ex, Ed, Ea. cbn [negb rbind].
    rewrite (pack_wire _ _ Lp B).
    replace (g_addr (q_gp q) / 4 * 4) with (g_addr (q_gp q)) by lia.
    replace (4 * (g_len (q_gp q) / 4)) with (g_len (q_gp q)) by lia.
    destruct (t s _) as [s' [d st]]. destruct (status_eqb st St_OK); reflexivity.
Qed.

(** ** Completions *)
Definition cpl_built (dw m t : N) (d : list N) : list N :=
  [2 * 536870912 + 10 * 16777216 + dw mod 1024; (4 * dw) mod 4096; m * 65536 + t * 256] ++ pack d.
Lemma cpl_words_ok a d dw m t : 0 < dw <= 1024 -> length d = (4 * N.to_nat dw)%nat -> m < 65536 -> t < 256 ->
  cpl_words (mkGp C_READ a d None (4 * dw) St_OK) m t = Ok (cpl_built dw m t d).
Proof.
  intros D L M T. unfold cpl_words.
  assert (El : g_len (mkGp C_READ a d None (4 * dw) St_OK) = 4 * dw) by (unfold g_len; cbn [g_data]; lia).
  assert (Ed : dw_len (mkGp C_READ a d None (4 * dw) St_OK) = dw).
  { unfold dw_len. rewrite El. replace (4 * dw mod 4) with 0 by lia. cbn [N.eqb]. lia. }
  rewrite El, Ed. cbn [is_rd g_cmd g_status status_eqb g_data].
  replace (if dw =? MAX_DW then 0 else dw) with (dw mod 1024).
  2:{ unfold MAX_DW. destruct (N.eqb_spec dw 1024) as [->|E]; [reflexivity|]. apply N.mod_small. lia. }
  replace (if 4 * dw =? 4096 then 0 else 4 * dw) with (4 * dw mod 4096).
  2:{ destruct (N.eqb_spec (4 * dw) 4096) as [->|E]; [reflexivity|]. apply N.mod_small. lia. }
  rewrite word0_ok; [|reflexivity|reflexivity|apply N.mod_lt; discriminate]. cbn [rbind].
  assert (Hb : 4 * dw mod 4096 < 4096) by (apply N.mod_lt; discriminate).
  set (bc := 4 * dw mod 4096) in *.
  pose proof (fields_cons 0 12 bc [] 0 Hb fields_nil eq_refl) as F1.
  pose proof (fields_cons 13 3 0 _ _ eq_refl F1 ltac:(pows; lia)) as F2.
  rewrite (fields_cons 16 16 0 _ _ eq_refl F2 ltac:(pows; lia)). cbn [rbind].
  pose proof (fields_cons 0 7 0 [] 0 eq_refl fields_nil eq_refl) as G1.
  pose proof (fields_cons 8 8 t _ _ T G1 ltac:(pows; lia)) as G2.
  rewrite (fields_cons 16 16 m _ _ M G2 ltac:(pows; lia)). cbn [rbind].
  unfold cpl_built. cbn [app]. unfold Type_Cpl. pows. do 2 f_equal. f_equal; [lia|]. f_equal. lia.
Qed.
Lemma cpl_layout a d dw m t : 0 < dw <= 1024 -> length d = (4 * N.to_nat dw)%nat -> bytes_ok d -> m < 65536 -> t < 256 ->
  rmap wire (cpl_words (mkGp C_READ a d None (4 * dw) St_OK) m t) = Ok (cpl_packet 0 0 (4 * dw) m t 0 dw d).
Proof.
  intros D L B M T. rewrite (cpl_words_ok a d dw m t D L M T). cbn [rmap rbind]. f_equal.
  unfold cpl_built. rewrite wire_app, (pack_wire _ _ L B). unfold cpl_packet, len_bytes.
  assert (Hl : dw mod 1024 < 1024) by (apply N.mod_lt; discriminate). set (l := dw mod 1024) in *. clearbody l.
  assert (Hb : 4 * dw mod 4096 < 4096) by (apply N.mod_lt; discriminate). set (c := 4 * dw mod 4096) in *. clearbody c.
  rewrite N.mul_0_l, N.add_0_l. rewrite (be_enc2 l), (be_enc2 0), (be_enc2 c), (be_enc2 m) by lia.
  cbn [wire flat_map]. rewrite app_nil_r.
  replace (2 * 536870912 + 10 * 16777216 + l) with (74 * 16777216 + 0 * 65536 + l / 256 * 256 + l mod 256) by lia.
  replace c with (0 * 16777216 + 0 * 65536 + c / 256 * 256 + c mod 256) at 1 by lia.
  replace (m * 65536 + t * 256) with (m / 256 * 16777216 + m mod 256 * 65536 + t * 256 + 0) by lia.
  rewrite !be_enc4 by lia. reflexivity.
Qed.

Lemma tx_id_eq k w k' w' : get_t9 (nth 0 w 0) = get_t9 (nth 0 w' 0) -> get_t8 (nth 0 w 0) = get_t8 (nth 0 w' 0) ->
  get_field 16 16 (nth k w 0) = get_field 16 16 (nth k' w' 0) -> get_field 8 8 (nth k w 0) = get_field 8 8 (nth k' w' 0) ->
  tx_id k w = tx_id k' w'.
Proof. intros A B C D. unfold tx_id. rewrite A, B, C, D. reflexivity. Qed.

Definition cw0 (dw : N) : N := 2 * 536870912 + 10 * 16777216 + dw mod 1024.
Lemma cw0_fields dw : get_fmt (cw0 dw) = 2 /\ get_t9 (cw0 dw) = 0 /\ get_t8 (cw0 dw) = 0 /\
  get_length (cw0 dw) = dw mod 1024 /\ cw0 dw < u32.
Proof.
  assert (Hl : dw mod 1024 < 1024) by (apply N.mod_lt; discriminate). unfold cw0.
  set (l := dw mod 1024) in *. clearbody l. unfold get_fmt, get_t9, get_t8, get_length. rewrite !get_field_div. pows.
  repeat split; lia.
Qed.

Definition first_word (d : list N) : N := nth 0 (pack d) 0.
Lemma rx_cpl_built dw m t d : 0 < dw -> length d = (4 * N.to_nat dw)%nat -> bytes_ok d -> m < 65536 -> t < 256 ->
  rx_cpl (wire (cpl_built dw m t d)) = Ok [cw0 dw; 4 * dw mod 4096; m * 65536 + t * 256; be_dec (firstn 4 d)].
Proof.
  intros D L B M T. pose proof (cw0_fields dw) as (Ef & _ & _ & _ & B0).
  unfold rx_cpl. rewrite wire_length. unfold cpl_built. fold (cw0 dw). cbn [app].
  assert (Lp : length (pack d) = N.to_nat dw) by (apply pack_length; exact L).
  assert (Hb : 4 * dw mod 4096 < u32) by (pose proof (N.mod_lt (4 * dw) 4096 ltac:(discriminate)); pows; lia).
  rewrite !word_at_next, !word_at_here; [|pows; lia|assumption|assumption].
  cbn [length]. rewrite Lp.
  replace (Nat.ltb _ 12) with false by (symmetry; apply Nat.ltb_ge; lia).
  replace (Nat.ltb _ 16) with false by (symmetry; apply Nat.ltb_ge; lia).
  rewrite Ef. cbn [N.eqb Pos.eqb app]. do 4 f_equal. unfold word_at. rewrite (pack_wire _ _ L B). reflexivity.
Qed.

Lemma rx_completion_built q a dw m t lb fb d : a < u64 -> 0 < dw <= 1024 -> m < 65536 -> t < 256 -> lb < 16 -> fb < 16 ->
  length d = (4 * N.to_nat dw)%nat -> bytes_ok d ->
  rx_completion q (built false a dw m t lb fb []) (wire (cpl_built dw m t d)) =
  rmap (fun l => (l, St_OK)) (copy_data (q_gp q) [cw0 dw; 4 * dw mod 4096; m * 65536 + t * 256; be_dec (firstn 4 d)]).
Proof.
  intros A D M T Lb Fb L B. unfold rx_completion. rewrite rx_cpl_built by (auto; lia). cbn [rbind].
  pose proof (cw0_fields dw) as (Ef & E9 & E8 & _ & _).
  assert (Hl : dw mod 1024 < 1024) by (apply N.mod_lt; discriminate).
  pose proof (fmt_of_lt false a) as Hf.
  assert (E : tx_id 1 (built false a dw m t lb fb []) =
              tx_id 2 [cw0 dw; 4 * dw mod 4096; m * 65536 + t * 256; be_dec (firstn 4 d)]).
  { apply tx_id_eq; unfold built; cbn [app nth].
    - rewrite t9_w0 by lia. now rewrite E9.
    - rewrite t8_w0 by lia. now rewrite E8.
    - rewrite w1_master by assumption. rewrite get_field_div. pows. lia.
    - rewrite w1_tag by assumption. rewrite get_field_div. pows. lia. }
  rewrite E, N.eqb_refl. cbn [negb nth]. rewrite Ef.
  assert (Ee : expects_data (built false a dw m t lb fb []) = true).
  { unfold expects_data, built. cbn [app nth]. rewrite type_w0 by lia. cbn [Type_Cfg0 Type_MRdWr N.eqb orb andb].
    unfold get_data_bit. rewrite get_field_div. unfold fmt_of. apply N.eqb_eq. pows. destruct (a <? _); lia. }
  rewrite Ee. reflexivity.
Qed.

Lemma be_enc_shift b0 b1 b2 b3 off : b0 < 256 -> b1 < 256 -> b2 < 256 -> b3 < 256 -> off < 4 ->
  be_enc 4 (N.shiftl (be_dec [b0; b1; b2; b3]) (off * 8) mod u32) =
  skipn (N.to_nat off) [b0; b1; b2; b3] ++ repeat 0 (N.to_nat off).
Proof.
  intros H0 H1 H2 H3 H. rewrite N.shiftl_mul_pow2. unfold be_dec. cbn [be_dec_acc].
  assert (C : off = 0 \/ off = 1 \/ off = 2 \/ off = 3) by lia.
  destruct C as [->|[->|[->| ->]]];
    match goal with |- context [N.to_nat ?k] => let x := eval vm_compute in (N.to_nat k) in change (N.to_nat k) with x end;
    cbn [skipn repeat app N.mul]; rewrite <- be_enc4 by lia; f_equal;
    match goal with |- context [2 ^ ?k] => let x := eval vm_compute in (2 ^ k) in change (2 ^ k) with x end; pows; lia.
Qed.

Definition small_read (q : req) : Prop :=
  g_addr (q_gp q) < u64 /\ 0 < g_len (q_gp q) /\ g_addr (q_gp q) mod 4 + g_len (q_gp q) <= 4 /\
  g_be_len (q_gp q) = 0 /\ q_master q < 65536 /\ q_tag q < 256 /\ is_wr (q_gp q) = false.

Lemma small_dw q : 0 < g_len (q_gp q) <= 4 -> dw_len (q_gp q) = 1.
Proof. intro H. unfold dw_len. destruct (N.eqb_spec (g_len (q_gp q) mod 4) 0); lia. Qed.
Lemma built_small q : small_read q ->
  mem_words q = Ok (built false (g_addr (q_gp q)) 1 (q_master q) (q_tag q) 0 15 []).
Proof.
  intros (A & L & O & B & M & T & W). pose proof (small_dw q ltac:(lia)) as D.
  rewrite (mem_words_gen q 0); rewrite ?D; auto; try reflexivity.
  - rewrite W. cbn [rbind]. unfold built, first_be, has_be. rewrite D, B. reflexivity.
  - discriminate.
  - unfold last_be. rewrite D. reflexivity.
  - unfold first_be, has_be. rewrite D, B. reflexivity.
Qed.

Lemma copy_small g b0 b1 b2 b3 x y : b0 < 256 -> b1 < 256 -> b2 < 256 -> b3 < 256 -> dw_len g = 1 ->
  copy_data g [cw0 1; x; y; be_dec [b0; b1; b2; b3]] =
  Ok (firstn (length (g_data g)) (skipn (N.to_nat (g_addr g mod 4)) [b0; b1; b2; b3] ++ repeat 0 (N.to_nat (g_addr g mod 4)))).
Proof.
  intros H0 H1 H2 H3 D. unfold copy_data. rewrite D. change (N.to_nat 1) with 1%nat. cbn [nth copy_words].
  pose proof (cw0_fields 1) as (Ef & _ & _ & El & _). rewrite Ef, El. change (1 mod 1024) with 1.
  cbn [N.eqb Pos.eqb N.of_nat N.ltb N.compare nth_error Nat.add rbind rmap].
  rewrite be_enc_shift by (auto; apply N.mod_lt; discriminate). rewrite app_nil_r. reflexivity.
Qed.

Lemma trip_read {S} stack (t : target S) s q :
  small_read q -> (4 <= length stack)%nat -> keeps_length t -> (forall s g, bytes_ok (fst (snd (t s g)))) ->
  mem_trip true stack t s q =
  let '(s', (d, st)) := t s (mkGp C_READ (g_addr (q_gp q) / 4 * 4) (firstn 4 stack) None 4 St_INCOMPLETE) in
  if status_eqb st St_OK
  then Ok (s', (slice (N.to_nat (g_addr (q_gp q) mod 4)) (length (g_data (q_gp q))) d, St_OK)) else AssertFail.
Proof.
  intros R Ls Kl Bt. unfold mem_trip. rewrite (built_small q R). cbn [rbind].
  pose proof R as (A & L & O & B & M & T & W).
  destruct (rx_built false (g_addr (q_gp q)) 1 (q_master q) (q_tag q) 0 15 []) as [x [E [Ed [Er [Ea [Em [Et Ex]]]]]]]; auto; try reflexivity; try lia.
  rewrite E. cbn [rbind]. unfold dma_payload. rewrite Er, Ed, Ea, Em, Et. cbn [negb rbind].
  change (4 * 1) with 4. change (N.to_nat 4) with 4%nat.
  pose proof (Kl s (mkGp C_READ (g_addr (q_gp q) / 4 * 4) (firstn 4 stack) None 4 St_INCOMPLETE)) as K.
  pose proof (Bt s (mkGp C_READ (g_addr (q_gp q) / 4 * 4) (firstn 4 stack) None 4 St_INCOMPLETE)) as Bd.
  destruct (t s _) as [s' [d st]]. cbn [fst snd g_data] in K, Bd. rewrite firstn_length_le in K by exact Ls.
  destruct (status_eqb st St_OK) eqn:Es; [|reflexivity]. cbn [negb]. rewrite W.
  assert (st = St_OK) as -> by (destruct st; (reflexivity || discriminate Es)).
  cbn [g_addr g_sw]. change 4 with (4 * 1) at 3. rewrite cpl_words_ok by (auto; try lia). cbn [rbind].
  rewrite rx_completion_built by (auto; try reflexivity; try lia).
  destruct d as [|b0 [|b1 [|b2 [|b3 [|]]]]]; try discriminate K.
  inversion Bd as [|? ? Ba B1]; subst. inversion B1 as [|? ? Bb B2]; subst.
  inversion B2 as [|? ? Bc B3]; subst. inversion B3 as [|? ? Bd' B4]; subst. unfold is_byte in *.
  cbn [firstn]. rewrite copy_small by (auto; apply small_dw; lia). cbn [rmap rbind]. do 4 f_equal.
  unfold slice. rewrite firstn_app.
  replace (length (g_data (q_gp q)) - length (skipn (N.to_nat (g_addr (q_gp q) mod 4)) [b0; b1; b2; b3]))%nat with 0%nat.
  2:{ rewrite skipn_length. cbn [length]. unfold g_len in *. lia. }
  cbn [firstn]. apply app_nil_r.
Qed.

(** ** Reads of more than one word *)
Lemma copy_long g dw x y v : 2 <= dw_len g -> 2 <= dw <= 1024 -> copy_data g [cw0 dw; x; y; v] = AssertFail.
Proof.
  intros D W. unfold copy_data. cbn [nth]. pose proof (cw0_fields dw) as (Ef & _ & _ & El & _). rewrite El.
  replace (if dw mod 1024 =? 0 then MAX_DW else dw mod 1024) with dw.
  2:{ unfold MAX_DW. destruct (N.eqb_spec (dw mod 1024) 0); lia. }
  destruct (N.to_nat (dw_len g)) as [|[|n]] eqn:En; [lia|lia|]. cbn [copy_words nth]. rewrite Ef.
  cbn [N.eqb Pos.eqb Nat.add nth_error N.of_nat].
  replace (0 <? dw) with true by (symmetry; apply N.ltb_lt; lia).
  replace (N.pos (Pos.of_succ_nat 0) <? dw) with true by (symmetry; apply N.ltb_lt; change (N.pos (Pos.of_succ_nat 0)) with 1; lia).
  reflexivity.
Qed.
Lemma trip_long {S} stack (t : target S) s q :
  whole q -> is_wr (q_gp q) = false -> 4 < g_len (q_gp q) -> (4096 <= length stack)%nat ->
  keeps_length t -> (forall s g, bytes_ok (fst (snd (t s g)))) ->
  mem_trip true stack t s q = AssertFail.
Proof.
  intros W Wr Ln Ls Kl Bt. unfold mem_trip. rewrite (built_whole q W), Wr. cbn [rbind].
  pose proof W as (A & A4 & M & L & Be & Mm & T). set (dw := g_len (q_gp q) / 4) in *.
  assert (Hdw : 2 <= dw <= 1024) by (unfold dw; lia).
  destruct (rx_built false (g_addr (q_gp q)) dw (q_master q) (q_tag q) (lastbe dw) 15 []) as [x [E [Ed [Er [Ea [Em [Et Ex]]]]]]]; auto.
  { lia. } { apply lastbe_lt. } { reflexivity. } { discriminate. }
  rewrite E. cbn [rbind]. unfold dma_payload. rewrite Er, Ed, Ea, Em, Et. cbn [negb rbind].
  set (p := mkGp C_READ _ _ _ _ _). pose proof (Kl s p) as K. pose proof (Bt s p) as Bd. 
  destruct (t s p) as [s' [d st]]. cbn [fst snd] in K, Bd. unfold p in K. cbn [g_data] in K. rewrite firstn_length_le in K by lia.
  destruct (status_eqb st St_OK) eqn:Es; [|reflexivity]. cbn [negb].
  assert (st = St_OK) as -> by (destruct st; (reflexivity || discriminate Es)).
  unfold p. cbn [g_addr g_sw]. rewrite cpl_words_ok by (auto; try lia). cbn [rbind].
  rewrite rx_completion_built by (auto; try reflexivity; try apply lastbe_lt; try lia).
  rewrite copy_long; [reflexivity| |exact Hdw]. rewrite (whole_dw q W). fold dw. lia.
Qed.

(** ** The swapped header *)
Lemma nth_map_bswap k ws : (k < length ws)%nat -> nth k (map bswap ws) 0 = bswap (nth k ws 0).
Proof. intro H. rewrite (nth_indep _ 0 (bswap 0)) by (rewrite map_length; exact H). apply map_nth. Qed.

Lemma expects_swapped a m t lb fb dat : expects_data (map bswap (built false a 1 m t lb fb dat)) = false.
Proof.
  unfold expects_data, built. cbn [app map nth]. unfold fmt_of. destruct (a <? u32); reflexivity.
Qed.
Lemma trip_swapped {S} stack (t : target S) s q r s' :
  small_read q -> (4 <= length stack)%nat -> keeps_length t -> (forall s g, bytes_ok (fst (snd (t s g)))) ->
  mem_trip false stack t s q = Ok (s', r) -> snd r = St_GENERIC.
Proof.
  intros R Ls Kl Bt. unfold mem_trip. rewrite (built_small q R). cbn [rbind].
  pose proof R as (A & L & O & B & M & T & W).
  destruct (rx_built false (g_addr (q_gp q)) 1 (q_master q) (q_tag q) 0 15 []) as [x [E [Ed [Er [Ea [Em [Et Ex]]]]]]]; auto; try reflexivity; try lia.
  rewrite E. cbn [rbind]. unfold dma_payload. rewrite Er, Ed, Ea, Em, Et. cbn [negb rbind].
  set (p := mkGp C_READ _ _ _ _ _). pose proof (Kl s p) as K. pose proof (Bt s p) as Bd. 
  destruct (t s p) as [s1 [d st]]. cbn [fst snd] in K, Bd. unfold p in K. cbn [g_data] in K. rewrite firstn_length_le in K by (cbn; lia).
  destruct (status_eqb st St_OK) eqn:Es; [|discriminate]. cbn [negb]. rewrite W.
  assert (st = St_OK) as -> by (destruct st; (reflexivity || discriminate Es)).
  unfold p. cbn [g_addr g_sw]. rewrite cpl_words_ok by (auto; try lia). cbn [rbind].
  unfold rx_completion. rewrite rx_cpl_built by (auto; lia). cbn [rbind].
  destruct (negb (tx_id _ _ =? _)); cbn [rbind]; [intro X; discriminate X|]. rewrite expects_swapped. cbn [nth].
  pose proof (cw0_fields 1) as (Ef & _). rewrite Ef. cbn [N.eqb Pos.eqb eqb rbind].
  intro H. apply Ok_inj in H. apply (f_equal snd) in H. cbn [snd] in H. rewrite <- H. reflexivity.
Qed.

(** ** Configuration requests *)
Lemma fold_bits (f : nat -> bool) s l acc i :
  N.testbit (fold_left (fun acc k => if f k then N.lor acc (N.shiftl 1 (s + N.of_nat k)) else acc) l acc) i =
  (N.testbit acc i || existsb (fun k => f k && (s + N.of_nat k =? i)) l)%bool.
Proof.
  revert acc. induction l as [|k l IH]; intro acc; cbn [fold_left existsb]; [now rewrite orb_false_r|].
  rewrite IH. destruct (f k); [|cbn [andb orb]; reflexivity].
  rewrite N.lor_spec, N.shiftl_1_l, N.pow2_bits_eqb. cbn [andb]. now rewrite orb_assoc.
Qed.
Lemma existsb_seq (f : nat -> bool) s n i :
  existsb (fun k => f k && (s + N.of_nat k =? i)) (seq 0 n) =
  ((s <=? i) && (i <? s + N.of_nat n) && f (N.to_nat (i - s)))%bool.
Proof.
  apply Bool.eq_iff_eq_true. rewrite existsb_exists, !andb_true_iff, N.leb_le, N.ltb_lt. split.
  - intros [k [Hk H]]. apply in_seq in Hk. apply andb_true_iff in H. destruct H as [Hf He]. apply N.eqb_eq in He.
    replace (N.to_nat (i - s)) with k by lia. repeat split; [lia|lia|exact Hf].
  - intros [[H1 H2] H3]. exists (N.to_nat (i - s)). split; [apply in_seq; lia|]. rewrite H3. apply N.eqb_eq. lia.
Qed.
Lemma bits_lt16 x : (forall i, 4 <= i -> N.testbit x i = false) -> x < 16.
Proof.
  intro H. replace x with (x mod 2 ^ 4); [apply N.mod_lt; discriminate|]. apply N.bits_inj. intro i.
  destruct (N.lt_ge_cases i 4) as [L|L]; [now rewrite N.mod_pow2_bits_low|].
  rewrite N.mod_pow2_bits_high by exact L. symmetry. apply H. exact L.
Qed.
Lemma cfg_be_bits g i : N.testbit (cfg_be g) i =
  ((cfg_start g <=? i) && (i <? cfg_start g + cfg_dlen g) &&
   (negb (has_be g) || be_at (g_be g) (i - cfg_start g)))%bool.
Proof.
  unfold cfg_be. rewrite (fold_bits (fun k => negb (has_be g) || be_at (g_be g) (N.of_nat k))).
  rewrite N.bits_0, (existsb_seq (fun k => negb (has_be g) || be_at (g_be g) (N.of_nat k))). cbn [orb].
  rewrite !N2Nat.id. reflexivity.
Qed.

Lemma lor_mod x b k : x mod 2 ^ k = 0 -> b < 2 ^ k -> N.lor x b = x + b.
Proof.
  intros Hx Hb. assert (Hk : 2 ^ k <> 0) by (apply N.pow_nonzero; discriminate).
  pose proof (N.div_mod x (2 ^ k) Hk) as E. rewrite Hx, N.add_0_r in E.
  rewrite E at 1. rewrite N.mul_comm, <- N.shiftl_mul_pow2, lor_shift by exact Hb.
  rewrite (N.mul_comm (x / 2 ^ k)), <- E. reflexivity.
Qed.

Lemma lanes_word s d : bytes_ok d -> s + N.of_nat (length d) <= 4 ->
  fold_left (fun acc k => N.lor acc (N.shiftl (nth k d 0) ((3 - s - N.of_nat k) * 8))) (seq 0 (length d)) 0 =
  be_dec (in_lanes (N.to_nat s) d).
Proof.
  intros B L. assert (C : s = 0 \/ s = 1 \/ s = 2 \/ s = 3 \/ s = 4) by lia.
  assert (Z : forall a, 0 < a -> 0 mod a = 0) by (intros a Ha; apply N.mod_0_l; lia).
  destruct d as [|b0 [|b1 [|b2 [|b3 [|]]]]]; cbn [length] in L; [..|lia];
  unfold bytes_ok in B; repeat match goal with H : Forall is_byte (_ :: _) |- _ => let h := fresh in inversion H as [|? ? h ?]; subst; clear H; unfold is_byte in h end;
  destruct C as [->|[->|[->|[->| ->]]]]; try lia; clear L; unfold in_lanes;
  match goal with |- context [N.to_nat ?k] => let x := eval vm_compute in (N.to_nat k) in change (N.to_nat k) with x end;
  cbn [length seq fold_left nth repeat app Nat.sub];
  unfold be_dec; cbn [be_dec_acc]; rewrite ?N.lor_0_l, ?N.shiftl_mul_pow2;
  repeat match goal with |- context [2 ^ ?e] => let x := eval vm_compute in (2 ^ e) in change (2 ^ e) with x end;
  repeat (first
    [ rewrite (lor_mod _ (_ * 65536) 24) by (pows; lia)
    | rewrite (lor_mod _ (_ * 256) 16) by (pows; lia)
    | rewrite (lor_mod _ (_ * 1) 8) by (pows; lia) ]);
  try reflexivity; lia.
Qed.

Lemma in_lanes_length s d : (s + length d <= 4)%nat -> length (in_lanes s d) = 4%nat.
Proof. intro H. unfold in_lanes. rewrite !app_length, !repeat_length. lia. Qed.
Lemma in_lanes_bytes s d : bytes_ok d -> bytes_ok (in_lanes s d).
Proof.
  assert (Z : forall k, bytes_ok (repeat 0 k)).
  { intro k. apply Forall_forall. intros x Hx. apply repeat_spec in Hx. subst. reflexivity. }
  intro B. unfold in_lanes, bytes_ok. apply Forall_app. split; [apply Z|]. apply Forall_app. split; [exact B|apply Z].
Qed.

Definition in_word (q : req) : Prop :=
  0 < g_len (q_gp q) /\ g_addr (q_gp q) mod 4 + g_len (q_gp q) <= 4 /\ q_master q < 65536 /\ q_tag q < 256.

Lemma cfg_be_lt g : cfg_start g + g_len g <= 4 -> cfg_be g < 16.
Proof.
  intro H. apply bits_lt16. intros i Hi. rewrite cfg_be_bits. unfold cfg_dlen.
  replace (i <? _) with false by (symmetry; apply N.ltb_ge; lia). now rewrite andb_false_r.
Qed.

Definition cfg_built (q : req) : list N :=
  let g := q_gp q in let a := g_addr g in
  [(if is_wr g then 2 else 0) * 536870912 + 4 * 16777216 + 1;
   w1_of (q_master q) (q_tag q) 0 (cfg_be g);
   a / 1048576 mod 256 * 16777216 + a / 32768 mod 32 * 524288 + a / 4096 mod 8 * 65536 + a / 256 mod 16 * 256 + a / 4 mod 64 * 4] ++
  (if is_wr g then [be_dec (in_lanes (N.to_nat (a mod 4)) (g_data g))] else []).

Lemma cfg_words_ok q : in_word q -> bytes_ok (g_data (q_gp q)) -> cfg_words q = Ok (cfg_built q).
Proof.
  intros (L0 & L & M & T) B. unfold cfg_words, cfg_built.
  rewrite word0_ok; [|destruct (is_wr (q_gp q)); reflexivity|reflexivity|reflexivity]. cbn [rbind].
  pose proof (cfg_be_lt (q_gp q) L) as Hb.
  pose proof (fields_cons 0 4 (cfg_be (q_gp q)) [] 0 Hb fields_nil eq_refl) as F1.
  pose proof (fields_cons 4 4 0 _ _ eq_refl F1 ltac:(pows; lia)) as F2.
  pose proof (fields_cons 8 8 (q_tag q) _ _ T F2 ltac:(pows; lia)) as F3.
  rewrite (fields_cons 16 16 (q_master q) _ _ M F3 ltac:(pows; lia)). cbn [rbind]. clear F1 F2 F3.
  set (a := g_addr (q_gp q)) in *.
  assert (E1 : get_field 20 8 (a mod u32) = a / 1048576 mod 256) by (rewrite get_field_div; pows; lia).
  assert (E2 : get_field 15 5 (a mod u32) = a / 32768 mod 32) by (rewrite get_field_div; pows; lia).
  assert (E3 : get_field 12 3 (a mod u32) = a / 4096 mod 8) by (rewrite get_field_div; pows; lia).
  assert (E4 : get_field 8 4 (a mod u32) = a / 256 mod 16) by (rewrite get_field_div; pows; lia).
  assert (E5 : get_field 2 6 (a mod u32) = a / 4 mod 64) by (rewrite get_field_div; pows; lia).
  rewrite E1, E2, E3, E4, E5. clear E1 E2 E3 E4 E5.
  pose proof (N.mod_lt (a / 1048576) 256 ltac:(discriminate)) as H1.
  pose proof (N.mod_lt (a / 32768) 32 ltac:(discriminate)) as H2.
  pose proof (N.mod_lt (a / 4096) 8 ltac:(discriminate)) as H3.
  pose proof (N.mod_lt (a / 256) 16 ltac:(discriminate)) as H4.
  pose proof (N.mod_lt (a / 4) 64 ltac:(discriminate)) as H5.
  set (v1 := a / 1048576 mod 256) in *. set (v2 := a / 32768 mod 32) in *. set (v3 := a / 4096 mod 8) in *.
  set (v4 := a / 256 mod 16) in *. set (v5 := a / 4 mod 64) in *. clearbody v1 v2 v3 v4 v5.
  pose proof (fields_cons 2 6 v5 [] 0 H5 fields_nil eq_refl) as F1.
  pose proof (fields_cons 8 4 v4 _ _ H4 F1 ltac:(pows; lia)) as F2.
  pose proof (fields_cons 16 3 v3 _ _ H3 F2 ltac:(pows; lia)) as F3.
  pose proof (fields_cons 19 5 v2 _ _ H2 F3 ltac:(pows; lia)) as F4.
  rewrite (fields_cons 24 8 v1 _ _ H1 F4 ltac:(pows; lia)). cbn [rbind].
  assert (Ed : is_wr (q_gp q) = true -> cfg_data (q_gp q) = Ok (be_dec (in_lanes (N.to_nat (a mod 4)) (g_data (q_gp q))))).
  { intros _. unfold cfg_data, cfg_start, cfg_dlen. fold a. unfold g_len in *.
    replace (N.min (N.of_nat (length (g_data (q_gp q)))) 4) with (N.of_nat (length (g_data (q_gp q)))) by lia.
    replace (4 <? _) with false by (symmetry; apply N.ltb_ge; exact L). rewrite Nat2N.id.
    rewrite lanes_word by assumption. reflexivity. }
  unfold Type_Cfg0, w1_of.
  destruct (is_wr (q_gp q)); [rewrite Ed by reflexivity|]; cbn [rmap rbind app]; pows; f_equal; f_equal; try lia;
    (f_equal; [lia|]); f_equal; lia.
Qed.

Lemma cfg_layout q : in_word q -> bytes_ok (g_data (q_gp q)) ->
  let a := g_addr (q_gp q) in
  rmap wire (cfg_words q) =
  Ok (cfg_packet (is_wr (q_gp q)) (q_master q) (q_tag q) (cfg_be (q_gp q))
        (a / 1048576 mod 256) (a / 32768 mod 32) (a / 4096 mod 8) (a / 256 mod 16) (a / 4 mod 64)
        (if is_wr (q_gp q) then in_lanes (N.to_nat (a mod 4)) (g_data (q_gp q)) else [])).
Proof.
  intros W B a. rewrite (cfg_words_ok q W B). pose proof W as (L0 & L & M & T). cbn [rmap rbind]. f_equal.
  pose proof (cfg_be_lt (q_gp q) L) as Hb.
  unfold cfg_built. fold a. rewrite wire_app.
  assert (Ed : wire (if is_wr (q_gp q) then [be_dec (in_lanes (N.to_nat (a mod 4)) (g_data (q_gp q)))] else []) =
               if is_wr (q_gp q) then in_lanes (N.to_nat (a mod 4)) (g_data (q_gp q)) else []).
  { destruct (is_wr (q_gp q)); [|reflexivity]. cbn [wire flat_map]. rewrite app_nil_r.
    assert (Hn : length (in_lanes (N.to_nat (a mod 4)) (g_data (q_gp q))) = 4%nat)
      by (apply in_lanes_length; unfold g_len, a in *; lia).
    rewrite <- Hn at 1. apply be_enc_dec. apply in_lanes_bytes. exact B. }
  rewrite Ed. unfold cfg_packet.
  pose proof (N.mod_lt (a / 1048576) 256 ltac:(discriminate)) as H1.
  pose proof (N.mod_lt (a / 32768) 32 ltac:(discriminate)) as H2.
  pose proof (N.mod_lt (a / 4096) 8 ltac:(discriminate)) as H3.
  pose proof (N.mod_lt (a / 256) 16 ltac:(discriminate)) as H4.
  pose proof (N.mod_lt (a / 4) 64 ltac:(discriminate)) as H5.
  set (v1 := a / 1048576 mod 256) in *. set (v2 := a / 32768 mod 32) in *. set (v3 := a / 4096 mod 8) in *.
  set (v4 := a / 256 mod 16) in *. set (v5 := a / 4 mod 64) in *. clearbody v1 v2 v3 v4 v5.
  cbn [wire flat_map]. rewrite app_nil_r. rewrite (be_enc2 (q_master q)) by exact M.
  replace ((if is_wr (q_gp q) then 2 else 0) * 536870912 + 4 * 16777216 + 1)
    with (((if is_wr (q_gp q) then 64 else 0) + 4) * 16777216 + 0 * 65536 + 0 * 256 + 1) by (destruct (is_wr (q_gp q)); reflexivity).
  replace (w1_of (q_master q) (q_tag q) 0 (cfg_be (q_gp q)))
    with (q_master q / 256 * 16777216 + q_master q mod 256 * 65536 + q_tag q * 256 + cfg_be (q_gp q)) by (unfold w1_of; lia).
  replace (v1 * 16777216 + v2 * 524288 + v3 * 65536 + v4 * 256 + v5 * 4)
    with (v1 * 16777216 + (v2 * 8 + v3) * 65536 + v4 * 256 + v5 * 4) by lia.
  rewrite !be_enc4; try lia; [reflexivity|]. destruct (is_wr (q_gp q)); reflexivity.
Qed.

(** Completions from any completer. *)
Definition any_cpl (f dw comp st bytes m t low : N) (d : list N) : list N :=
  [f * 536870912 + 10 * 16777216 + dw mod 1024; comp * 65536 + st * 8192 + bytes mod 4096; m * 65536 + t * 256 + low] ++ pack d.
Lemma any_cpl_wire f dw comp st bytes m t low d n : f < 8 -> comp < 65536 -> st < 8 -> m < 65536 -> t < 256 -> low < 128 ->
  length d = (4 * n)%nat -> bytes_ok d ->
  wire (any_cpl f dw comp st bytes m t low d) =
  [f * 32 + 10; 0] ++ len_bytes dw ++ be_enc 2 comp ++ be_enc 2 (st * 8192 + bytes mod 4096) ++ be_enc 2 m ++ [t; low] ++ d.
Proof.
  intros F C St M T Lo L B. unfold any_cpl. rewrite wire_app, (pack_wire _ _ L B). unfold len_bytes.
  assert (Hl : dw mod 1024 < 1024) by (apply N.mod_lt; discriminate). set (l := dw mod 1024) in *. clearbody l.
  assert (Hb : bytes mod 4096 < 4096) by (apply N.mod_lt; discriminate). set (c := bytes mod 4096) in *. clearbody c.
  rewrite (be_enc2 l), (be_enc2 comp), (be_enc2 (st * 8192 + c)), (be_enc2 m) by lia.
  cbn [wire flat_map]. rewrite app_nil_r.
  replace (f * 536870912 + 10 * 16777216 + l) with ((f * 32 + 10) * 16777216 + 0 * 65536 + l / 256 * 256 + l mod 256) by lia.
  replace (comp * 65536 + st * 8192 + c) with (comp / 256 * 16777216 + comp mod 256 * 65536 + (st * 8192 + c) / 256 * 256 + (st * 8192 + c) mod 256) by lia.
  replace (m * 65536 + t * 256 + low) with (m / 256 * 16777216 + m mod 256 * 65536 + t * 256 + low) by lia.
  rewrite !be_enc4 by lia. reflexivity.
Qed.

Lemma cfg_tx_id q comp st bytes low : in_word q -> low < 128 ->
  forall f x d, f < 8 -> x < 2 ->
  tx_id 1 (cfg_built q) = tx_id 2 ([f * 536870912 + 10 * 16777216 + x; comp * 65536 + st * 8192 + bytes mod 4096; q_master q * 65536 + q_tag q * 256 + low] ++ d).
Proof.
  intros (L0 & L & M & T) Lo f x d F X. pose proof (cfg_be_lt (q_gp q) L) as Hb.
  apply tx_id_eq; unfold cfg_built; cbn [app nth].
  - unfold get_t9. rewrite !get_field_div. pows. destruct (is_wr (q_gp q)); lia.
  - unfold get_t8. rewrite !get_field_div. pows. destruct (is_wr (q_gp q)); lia.
  - rewrite w1_master by (try assumption; reflexivity). rewrite get_field_div. pows. lia.
  - rewrite w1_tag by (try assumption; reflexivity). rewrite get_field_div. pows. lia.
Qed.

Lemma cfg_read_completion q comp st bytes low d : in_word q -> is_wr (q_gp q) = false ->
  comp < 65536 -> st < 8 -> low < 128 -> length d = 4%nat -> bytes_ok d ->
  rx_completion q (cfg_built q) (cpl_packet comp st bytes (q_master q) (q_tag q) low 1 d) =
  Ok (slice (N.to_nat (g_addr (q_gp q) mod 4)) (length (g_data (q_gp q))) d, St_OK).
Proof.
  intros W Wr C St Lo Ld B. pose proof W as (L0 & L & M & T).
  unfold cpl_packet. change (64 + 10) with (2 * 32 + 10).
  rewrite <- (any_cpl_wire 2 1 comp st bytes (q_master q) (q_tag q) low d 1) by (auto; reflexivity).
  unfold any_cpl. destruct d as [|b0 [|b1 [|b2 [|b3 [|]]]]]; try discriminate Ld.
  assert (Ep : pack [b0; b1; b2; b3] = [be_dec [b0; b1; b2; b3]]).
  { pose proof (pack_wire [b0; b1; b2; b3] 1 eq_refl B) as P. cbn [pack wire flat_map] in *. rewrite app_nil_r in P.
    f_equal. apply (f_equal be_dec) in P. rewrite be_dec_enc in P. rewrite N.mod_small in P; [exact P|].
    inversion B as [|? ? Ba B1]; subst. inversion B1 as [|? ? Bb B2]; subst.
    inversion B2 as [|? ? Bc B3]; subst. inversion B3 as [|? ? Bd' B4]; subst. unfold is_byte in *.
    rewrite (lor_shift b2) by (pows; lia). rewrite (lor_shift b1) by (pows; lia). rewrite (lor_shift b0) by (pows; lia).
    change (256 ^ N.of_nat 4) with 4294967296. pows. lia. }
  assert (Bv : be_dec [b0; b1; b2; b3] < u32) by (exact (be_dec_bound [b0; b1; b2; b3] B)).
  rewrite Ep. change (1 mod 1024) with 1.
  unfold rx_completion, rx_cpl. rewrite wire_length. cbn [app length Nat.mul Nat.add Nat.ltb Nat.leb].
  assert (Hb : bytes mod 4096 < 4096) by (apply N.mod_lt; discriminate).
  rewrite !word_at_next, !word_at_here; try assumption; try (pows; lia).
  change (get_fmt (2 * 536870912 + 10 * 16777216 + 1)) with 2. cbn [N.eqb Pos.eqb app rbind].
  assert (E : tx_id 1 (cfg_built q) = tx_id 2
     [2 * 536870912 + 10 * 16777216 + 1; comp * 65536 + st * 8192 + bytes mod 4096; q_master q * 65536 + q_tag q * 256 + low; be_dec [b0; b1; b2; b3]])
    by (apply (cfg_tx_id q comp st bytes low W Lo 2 1 [be_dec [b0; b1; b2; b3]]); reflexivity).
  rewrite E, N.eqb_refl. cbn [negb nth]. change (get_fmt (2 * 536870912 + 10 * 16777216 + 1)) with 2.
  assert (Ee : expects_data (cfg_built q) = true) by (unfold expects_data, cfg_built; rewrite Wr; reflexivity).
  rewrite Ee. cbn [N.eqb Pos.eqb eqb].
  change (2 * 536870912 + 10 * 16777216 + 1) with (cw0 1).
  inversion B as [|? ? Ba B1]; subst. inversion B1 as [|? ? Bb B2]; subst.
  inversion B2 as [|? ? Bc B3]; subst. inversion B3 as [|? ? Bd' B4]; subst. unfold is_byte in *.
  rewrite copy_small by (auto; apply small_dw; lia). cbn [rmap rbind]. do 2 f_equal.
  unfold slice. rewrite firstn_app.
  replace (length (g_data (q_gp q)) - length (skipn (N.to_nat (g_addr (q_gp q) mod 4)) [b0; b1; b2; b3]))%nat with 0%nat.
  2:{ rewrite skipn_length. cbn [length]. unfold g_len in *. lia. }
  cbn [firstn]. apply app_nil_r.
Qed.
Lemma cfg_write_completion q comp st bytes low : in_word q -> is_wr (q_gp q) = true ->
  comp < 65536 -> st < 8 -> low < 128 ->
  rx_completion q (cfg_built q) (cpl_nodata comp st bytes (q_master q) (q_tag q) low) = Ok (g_data (q_gp q), St_OK).
Proof.
  intros W Wr C St Lo. pose proof W as (L0 & L & M & T).
  assert (Ew : cpl_nodata comp st bytes (q_master q) (q_tag q) low = wire (any_cpl 0 0 comp st bytes (q_master q) (q_tag q) low [])).
  { rewrite (any_cpl_wire 0 0 comp st bytes (q_master q) (q_tag q) low [] 0) by (auto; try reflexivity; constructor).
    reflexivity. }
  rewrite Ew. unfold any_cpl. cbn [pack]. rewrite app_nil_r. change (0 mod 1024) with 0.
  unfold rx_completion, rx_cpl. rewrite wire_length. cbn [length Nat.mul Nat.add Nat.ltb Nat.leb].
  assert (Hb : bytes mod 4096 < 4096) by (apply N.mod_lt; discriminate).
  rewrite !word_at_next, !word_at_here; try assumption; try (pows; lia).
  change (get_fmt (0 * 536870912 + 10 * 16777216 + 0)) with 0. cbn [N.eqb Pos.eqb app rbind].
  assert (E : tx_id 1 (cfg_built q) = tx_id 2
     [0 * 536870912 + 10 * 16777216 + 0; comp * 65536 + st * 8192 + bytes mod 4096; q_master q * 65536 + q_tag q * 256 + low])
    by (apply (cfg_tx_id q comp st bytes low W Lo 0 0 []); reflexivity).
  rewrite E, N.eqb_refl. cbn [negb nth]. change (get_fmt (0 * 536870912 + 10 * 16777216 + 0)) with 0.
  assert (Ee : expects_data (cfg_built q) = false) by (unfold expects_data, cfg_built; rewrite Wr; reflexivity).
  rewrite Ee. reflexivity.
Qed.

Lemma cfg_other_completion q comp st bytes low rid tag : in_word q ->
  comp < 65536 -> st < 8 -> low < 128 -> rid < 65536 -> tag < 256 -> (rid, tag) <> (q_master q, q_tag q) ->
  rx_completion q (cfg_built q) (cpl_nodata comp st bytes rid tag low) = AssertFail.
Proof.
  intros W C St Lo Hr Ht Hne. pose proof W as (L0 & L & M & T).
  assert (Ew : cpl_nodata comp st bytes rid tag low = wire (any_cpl 0 0 comp st bytes rid tag low [])).
  { rewrite (any_cpl_wire 0 0 comp st bytes rid tag low [] 0) by (auto; try reflexivity; constructor). reflexivity. }
  rewrite Ew. unfold any_cpl. cbn [pack]. rewrite app_nil_r. change (0 mod 1024) with 0.
  unfold rx_completion, rx_cpl. rewrite wire_length. cbn [length Nat.mul Nat.add Nat.ltb Nat.leb].
  assert (Hb : bytes mod 4096 < 4096) by (apply N.mod_lt; discriminate).
  rewrite !word_at_next, !word_at_here; try assumption; try (pows; lia).
  change (get_fmt (0 * 536870912 + 10 * 16777216 + 0)) with 0. cbn [N.eqb Pos.eqb app rbind].
  pose proof (cfg_be_lt (q_gp q) L) as Hbe.
  assert (I : forall m t, m < 65536 -> t < 256 -> N.lor (N.shiftl m 16 mod u32) (N.lor (N.shiftl 0 9) (N.lor (N.shiftl 0 8) t)) = m * 65536 + t).
  { intros m t Hm Htt. rewrite !N.shiftl_0_l, !N.lor_0_l. rewrite N.mod_small by (rewrite N.shiftl_mul_pow2; pows; lia).
    rewrite lor_shift by (pows; lia). reflexivity. }
  assert (E1 : tx_id 1 (cfg_built q) = q_master q * 65536 + q_tag q).
  { unfold tx_id, cfg_built. cbn [app nth]. rewrite w1_master, w1_tag by (try assumption; reflexivity).
    replace (get_t9 _) with 0 by (unfold get_t9; rewrite get_field_div; pows; destruct (is_wr (q_gp q)); lia).
    replace (get_t8 _) with 0 by (unfold get_t8; rewrite get_field_div; pows; destruct (is_wr (q_gp q)); lia).
    apply I; assumption. }
  assert (E2 : tx_id 2 [0 * 536870912 + 10 * 16777216 + 0; comp * 65536 + st * 8192 + bytes mod 4096; rid * 65536 + tag * 256 + low] = rid * 65536 + tag).
  { unfold tx_id. cbn [nth].
    replace (get_field 16 16 (rid * 65536 + tag * 256 + low)) with rid by (rewrite get_field_div; pows; lia).
    replace (get_field 8 8 (rid * 65536 + tag * 256 + low)) with tag by (rewrite get_field_div; pows; lia).
    change (get_t9 (0 * 536870912 + 10 * 16777216 + 0)) with 0. change (get_t8 (0 * 536870912 + 10 * 16777216 + 0)) with 0.
    apply I; assumption. }
  rewrite E1, E2. replace (_ =? _) with false; [reflexivity|]. symmetry. apply N.eqb_neq. intro X. apply Hne.
  f_equal; lia.
Qed.
