(** Proofs about the read and write loops. *)
From Verif Require Import Base BaseFacts RpProtoModel RpIoModel RpIoSpec.
Open Scope nat_scope.

Lemma firstn_skipn_min {A} n k (l : list A) :
  n <= k -> firstn n l ++ skipn n l = l.
Proof. intros _. apply firstn_skipn. Qed.

Lemma safe_read_sound evs : forall stream done n d evs' st,
  length done <= n ->
  safe_read evs stream done n = Ret d evs' st ->
  exists got used, d = done ++ got /\ stream = got ++ st /\ evs = used ++ evs' /\
    length d <= n /\ Forall good_or_eof used /\
    (length d < n -> In Zero used \/ st = []).
Proof.
  induction evs as [|e evs IH]; intros stream done n d evs' st Hl H; [discriminate|].
  cbn [safe_read] in H. destruct e as [k| | | |].
  - remember (Nat.min (S k) (n - length done)) as m eqn:Em0.
    destruct ((length (done ++ firstn m stream) <? n) && negb (length (firstn m stream) =? 0)) eqn:E.
    + apply IH in H.
      2:{ apply andb_true_iff in E. destruct E as (E & _). apply Nat.ltb_lt in E. lia. }
      destruct H as (got & used & Hd & Hs & He & Hn & Hg & Hz).
      exists (firstn m stream ++ got), (Some_bytes k :: used).
      split; [rewrite Hd, app_assoc; reflexivity|].
      split; [rewrite <- app_assoc, <- Hs; symmetry; apply firstn_skipn|].
      split; [cbn; rewrite He; reflexivity|]. split; [exact Hn|].
      split; [constructor; [exact I|exact Hg]|].
      intros Hlt. destruct (Hz Hlt); [left; right; assumption|right; assumption].
    + injection H as <- <- <-.
      exists (firstn m stream), [Some_bytes k].
      split; [reflexivity|]. split; [symmetry; apply firstn_skipn|]. split; [reflexivity|].
      assert (Hle : length (done ++ firstn m stream) <= n).
      { rewrite app_length, firstn_length. lia. }
      split; [exact Hle|]. split; [constructor; [exact I|constructor]|].
      intros Hlt. right. apply Nat.ltb_lt in Hlt. rewrite Hlt in E. cbn [andb] in E.
      apply negb_false_iff, Nat.eqb_eq in E.
      destruct stream as [|x s]; [destruct m; reflexivity|].
      apply Nat.ltb_lt in Hlt. rewrite app_length, E in Hlt.
      rewrite firstn_length in E. cbn [length] in E. lia.
  - injection H as <- <- <-. exists [], [Zero].
    rewrite app_nil_r. cbn. repeat split; auto. repeat constructor.
  - destruct (length done <? n) eqn:E.
    + apply IH in H; [|exact Hl].
      destruct H as (got & used & Hd & Hs & He & Hn & Hg & Hz).
      exists got, (Eintr :: used). repeat (split; [assumption|]).
      split; [cbn; rewrite He; reflexivity|]. split; [exact Hn|].
      split; [constructor; [exact I|exact Hg]|].
      intros Hlt. destruct (Hz Hlt); [left; right; assumption|right; assumption].
    + injection H as <- <- <-. exists [], [Eintr].
      rewrite app_nil_r. apply Nat.ltb_ge in E. cbn. repeat split; auto; [repeat constructor|lia].
  - discriminate.
  - discriminate.
Qed.

Lemma safe_read_fail evs : forall stream done n,
  safe_read evs stream done n = Fail -> In Eagain evs \/ In Eother evs.
Proof.
  induction evs as [|e evs IH]; intros stream done n H; [discriminate|].
  cbn [safe_read] in H. destruct e as [k| | | |]; cbn [In]; auto; try discriminate.
  - destruct (_ && _) in H; [apply IH in H; tauto|discriminate].
  - destruct (_ <? _) in H; [apply IH in H; tauto|discriminate].
Qed.

(** Progress: with [n] successful calls the whole count is read. *)
Lemma safe_read_complete evs : forall stream done n,
  length done <= n -> n - length done <= length stream ->
  Forall good evs -> Nat.max 1 (n - length done) <= calls evs ->
  exists evs', safe_read evs stream done n =
    Ret (done ++ firstn (n - length done) stream) evs' (skipn (n - length done) stream).
Proof.
  induction evs as [|e evs IH]; intros stream done n Hd Hs Hg Hc; [cbn [calls] in Hc; lia|].
  inversion Hg as [|? ? Ge Gevs]; subst. cbn [safe_read].
  destruct e as [k| | | |]; try contradiction; cbn [calls] in Hc.
  - remember (Nat.min (S k) (n - length done)) as m eqn:Em0.
    assert (Hm : length (firstn m stream) = m) by (rewrite firstn_length; lia).
    destruct ((length (done ++ firstn m stream) <? n) && negb (length (firstn m stream) =? 0)) eqn:E.
    + apply andb_true_iff in E. destruct E as (E1 & E2).
      apply Nat.ltb_lt in E1. apply negb_true_iff, Nat.eqb_neq in E2.
      rewrite app_length, Hm in E1. rewrite Hm in E2.
      destruct (IH (skipn m stream) (done ++ firstn m stream) n) as (evs' & R).
      * rewrite app_length, Hm. lia.
      * rewrite app_length, Hm, skipn_length. lia.
      * exact Gevs.
      * rewrite app_length, Hm. lia.
      * exists evs'. rewrite R, app_length, Hm.
        replace (n - length done) with (m + (n - (length done + m))) by lia.
        replace (n - length done - m) with (n - (length done + m)) by lia.
        generalize (n - (length done + m)); intros q.
        rewrite <- app_assoc, skipn_add, firstn_add. reflexivity.
    + exists evs. apply andb_false_iff in E.
      assert (Em : m = n - length done).
      { destruct E as [E|E].
        - apply Nat.ltb_ge in E. rewrite app_length, Hm in E. lia.
        - apply negb_false_iff, Nat.eqb_eq in E. lia. }
      rewrite Em. reflexivity.
  - destruct (length done <? n) eqn:E.
    + apply IH; assumption.
    + apply Nat.ltb_ge in E. exists evs. replace (n - length done) with 0 by lia.
      cbn. rewrite app_nil_r. reflexivity.
Qed.

Lemma safe_write_sound evs : forall rest sent d evs' left,
  safe_write evs rest sent = Ret d evs' left ->
  exists out used, d = sent ++ out /\ rest = out ++ left /\ evs = used ++ evs' /\
    (left <> [] -> In Eagain used).
Proof.
  induction evs as [|e evs IH]; intros rest sent d evs' left H; [discriminate|].
  cbn [safe_write] in H. destruct e as [k| | | |].
  - destruct (skipn (S k) rest) as [|x s] eqn:E.
    + injection H as <- <- <-. exists (firstn (S k) rest), [Some_bytes k].
      split; [reflexivity|]. split; [rewrite <- E; symmetry; apply firstn_skipn|].
      split; [reflexivity|]. intros C; contradiction.
    + apply IH in H. destruct H as (out & used & Hd & Hr & He & Hl).
      exists (firstn (S k) rest ++ out), (Some_bytes k :: used).
      split; [rewrite Hd, app_assoc; reflexivity|].
      split; [rewrite <- app_assoc, <- Hr, <- E; symmetry; apply firstn_skipn|].
      split; [cbn; rewrite He; reflexivity|]. intros C. right. auto.
  - destruct rest as [|x s].
    + injection H as <- <- <-. exists [], [Zero]. rewrite app_nil_r.
      repeat split; intros C; contradiction.
    + apply IH in H. destruct H as (out & used & Hd & Hr & He & Hl).
      exists out, (Zero :: used). repeat split; auto. cbn; rewrite He; reflexivity.
      intros C. right. auto.
  - destruct rest as [|x s].
    + injection H as <- <- <-. exists [], [Eintr]. rewrite app_nil_r.
      repeat split; intros C; contradiction.
    + apply IH in H. destruct H as (out & used & Hd & Hr & He & Hl).
      exists out, (Eintr :: used). repeat split; auto. cbn; rewrite He; reflexivity.
      intros C. right. auto.
  - injection H as <- <- <-. exists [], [Eagain]. rewrite app_nil_r.
    repeat split. intros _. left. reflexivity.
  - discriminate.
Qed.

Lemma safe_write_fail evs : forall rest sent,
  safe_write evs rest sent = Fail -> In Eother evs.
Proof.
  induction evs as [|e evs IH]; intros rest sent H; [discriminate|].
  cbn [safe_write] in H. destruct e as [k| | | |]; cbn [In]; auto; try discriminate.
  - destruct (skipn _ _); [discriminate|]. apply IH in H; tauto.
  - destruct rest; [discriminate|apply IH in H; tauto].
  - destruct rest; [discriminate|apply IH in H; tauto].
Qed.

Lemma safe_write_complete evs : forall rest sent,
  Forall good evs -> Nat.max 1 (length rest) <= calls evs ->
  exists evs', safe_write evs rest sent = Ret (sent ++ rest) evs' [].
Proof.
  induction evs as [|e evs IH]; intros rest sent Hg Hc; [cbn [calls] in Hc; lia|].
  inversion Hg as [|? ? Ge Gevs]; subst. cbn [safe_write].
  destruct e as [k| | | |]; try contradiction; cbn [calls] in Hc.
  - destruct (skipn (S k) rest) as [|x s] eqn:E.
    + exists evs. f_equal. f_equal.
      rewrite <- (firstn_skipn (S k) rest) at 2. rewrite E, app_nil_r. reflexivity.
    + destruct (IH (x :: s) (sent ++ firstn (S k) rest)) as (evs' & R).
      * exact Gevs.
      * assert (L := f_equal (@length N) E). rewrite skipn_length in L. cbn [length] in *. lia.
      * exists evs'. rewrite R, <- E, <- app_assoc, firstn_skipn. reflexivity.
  - destruct rest as [|x s].
    + exists evs. rewrite app_nil_r. reflexivity.
    + apply IH; assumption.
Qed.

(** rp_read *)
Lemma rp_read_ok evs stream n d evs' st :
  rp_read evs stream n = Some (Ok (d, evs', st)) ->
  length d = n /\ stream = d ++ st.
Proof.
  unfold rp_read. destruct (safe_read evs stream [] n) eqn:E; try discriminate.
  apply safe_read_sound in E; [|cbn; lia].
  destruct E as (got & used & -> & -> & _ & Hn & _). cbn [app] in *.
  destruct (length got <? n) eqn:L; [discriminate|]. intros H; injection H as <- <- <-.
  apply Nat.ltb_ge in L. split; [lia|reflexivity].
Qed.

Lemma rp_read_complete evs stream n :
  n <= length stream -> Forall good evs -> Nat.max 1 n <= calls evs ->
  exists evs', rp_read evs stream n = Some (Ok (firstn n stream, evs', skipn n stream)).
Proof.
  intros Hs Hg Hc. unfold rp_read.
  destruct (safe_read_complete evs stream [] n) as (evs' & R); cbn [length]; try lia; auto.
  cbn [length] in R. rewrite R. rewrite Nat.sub_0_r. cbn [app].
  rewrite firstn_length. destruct (Nat.ltb_spec (Nat.min n (length stream)) n); [lia|]. eauto.
Qed.

Lemma good_tail evs used evs' : evs = used ++ evs' -> Forall good evs -> Forall good evs'.
Proof. intros -> H. apply Forall_app in H. apply H. Qed.

(** Whatever the schedule, a packet that is received is the packet of the stream. *)
Lemma rx_one_os_sound evs buf stream r evs' rest :
  rx_one_os evs buf stream = Some (Ok (r, evs', rest)) ->
  rx_one buf stream = Ok (r, rest).
Proof.
  unfold rx_one_os, rx_one.
  destruct (rp_read evs stream 20) as [[[[hd evs1] st1]| | |]|] eqn:R1; try discriminate.
  apply rp_read_ok in R1. destruct R1 as (L1 & ->).
  destruct (rp_read evs1 st1 _) as [[[[pay evs2] st2]| | |]|] eqn:R2; try discriminate.
  apply rp_read_ok in R2. destruct R2 as (L2 & ->).
  rewrite !app_length, L1.
  destruct (Nat.ltb_spec (20 + (length pay + length st2)) 20); [lia|].
  rewrite (firstn_app_len 20 hd) by exact L1.
  rewrite (skipn_app_len 20 hd) by exact L1.
  set (n := N.to_nat (h_len (rp_decode_hdr (overlay 0 hd buf)))) in *.
  rewrite app_length.
  destruct (Nat.ltb_spec (length pay + length st2) n); [lia|].
  rewrite (firstn_app_len n pay) by exact L2.
  rewrite (skipn_app_len n pay) by exact L2.
  destruct (rp_decode_payload _ _) as [[pl used]| | |]; cbn [rbind]; try discriminate.
  intros H2. injection H2 as <- <- <-. reflexivity.
Qed.

(** A sufficiently long schedule without errors receives every packet. *)
Lemma calls_app a b : calls (a ++ b) = calls a + calls b.
Proof. induction a as [|[] a IH]; cbn; lia. Qed.

Lemma safe_read_calls evs : forall stream done n d evs' st,
  length done <= n ->
  safe_read evs stream done n = Ret d evs' st ->
  calls evs <= calls evs' + S (length d - length done).
Proof.
  induction evs as [|e evs IH]; intros stream done n d evs' st Hl H; [discriminate|].
  cbn [safe_read] in H. destruct e as [k| | | |]; cbn [calls].
  - remember (Nat.min (S k) (n - length done)) as m eqn:Em0.
    destruct ((length (done ++ firstn m stream) <? n) && negb (length (firstn m stream) =? 0)) eqn:E.
    + apply andb_true_iff in E. destruct E as (E1 & E2).
      apply Nat.ltb_lt in E1. apply negb_true_iff, Nat.eqb_neq in E2.
      assert (H' := H). apply safe_read_sound in H'; [|lia].
      destruct H' as (got & used & Hd & _). apply (f_equal (@length N)) in Hd.
      apply IH in H; [|lia]. rewrite !app_length in *. lia.
    + injection H as <- <- <-. lia.
  - injection H as <- <- <-. lia.
  - destruct (length done <? n).
    + apply IH in H; [lia|exact Hl].
    + injection H as <- <- <-. lia.
  - discriminate.
  - discriminate.
Qed.

Lemma rx_one_os_complete evs buf stream r rest :
  rx_one buf stream = Ok (r, rest) ->
  Forall good evs -> 2 + length stream <= calls evs ->
  exists evs', rx_one_os evs buf stream = Some (Ok (r, evs', rest)).
Proof.
  unfold rx_one, rx_one_os. intros H Hg Hc.
  destruct (Nat.ltb_spec (length stream) 20) as [|L]; [discriminate|].
  destruct (rp_read_complete evs stream 20 L Hg) as (evs1 & R1); [lia|].
  rewrite R1.
  assert (Hc1 : Forall good evs1 /\ calls evs <= calls evs1 + 21).
  { unfold rp_read in R1. destruct (safe_read evs stream [] 20) eqn:E; try discriminate.
    assert (E' := E).
    apply safe_read_sound in E; [|cbn; lia].
    destruct E as (got & used & -> & -> & He & Hn & _).
    destruct (_ <? _) in R1; [discriminate|]. injection R1 as _ <- _.
    split; [eapply good_tail; eauto|].
    apply safe_read_calls in E'; [|cbn; lia]. cbn [app length] in *. lia. }
  destruct Hc1 as (Hg1 & Hc1).
  set (n := N.to_nat (h_len (rp_decode_hdr (overlay 0 (firstn 20 stream) buf)))) in *.
  destruct (Nat.ltb_spec (length (skipn 20 stream)) n) as [|L2]; [discriminate|].
  rewrite skipn_length in L2.
  destruct (rp_read_complete evs1 (skipn 20 stream) n) as (evs2 & R2);
    [rewrite skipn_length; lia|exact Hg1|lia|].
  rewrite R2. exists evs2.
  destruct (rp_decode_payload _ _) as [[pl used]| | |]; cbn [rbind] in *; try discriminate.
  injection H as <- <-. reflexivity.
Qed.
