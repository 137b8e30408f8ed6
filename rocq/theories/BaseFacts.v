(** Facts about byte encodings and buffers used by several developments. *)
From Verif Require Import Base.
Open Scope N_scope.

Lemma be_enc_length k v : length (be_enc k v) = k.
Proof. induction k as [|k IH]; cbn [be_enc length]; congruence. Qed.

Lemma be_enc_bytes k v : bytes_ok (be_enc k v).
Proof.
  induction k as [|k IH]; constructor; [|exact IH].
  unfold is_byte. apply N.mod_lt. discriminate.
Qed.

Lemma be_dec_acc_app a l1 l2 :
  be_dec_acc a (l1 ++ l2) = be_dec_acc (be_dec_acc a l1) l2.
Proof. revert a; induction l1 as [|b l1 IH]; intros a; cbn [app be_dec_acc]; auto. Qed.

Lemma pow256_pos k : 0 < 256 ^ N.of_nat k.
Proof. apply N.neq_0_lt_0, N.pow_nonzero; discriminate. Qed.

Lemma pow256_S k : 256 ^ N.of_nat (S k) = 256 * 256 ^ N.of_nat k.
Proof. rewrite Nat2N.inj_succ, N.pow_succ_r'; reflexivity. Qed.

Lemma be_dec_acc_enc k v a :
  be_dec_acc a (be_enc k v) = a * 256 ^ N.of_nat k + v mod 256 ^ N.of_nat k.
Proof.
  revert a; induction k as [|k IH]; intros a.
  - cbn [be_enc be_dec_acc]. change (256 ^ N.of_nat 0) with 1.
    rewrite N.mod_1_r. lia.
  - cbn [be_enc be_dec_acc]. rewrite IH, pow256_S.
    pose proof (pow256_pos k) as Hp. set (P := 256 ^ N.of_nat k) in *.
    rewrite (N.mul_comm 256 P). rewrite N.mod_mul_r by lia. lia.
Qed.

Lemma be_dec_enc k v : be_dec (be_enc k v) = v mod 256 ^ N.of_nat k.
Proof. unfold be_dec. rewrite be_dec_acc_enc. lia. Qed.

Lemma be_dec_acc_bound l : forall a,
  bytes_ok l -> be_dec_acc a l < (a + 1) * 256 ^ N.of_nat (length l).
Proof.
  induction l as [|b l IH]; intros a H; cbn [be_dec_acc length].
  - change (256 ^ N.of_nat 0) with 1. lia.
  - inversion H as [|? ? Hb Hl]; subst. unfold is_byte in Hb.
    specialize (IH (a * 256 + b) Hl). rewrite pow256_S.
    pose proof (pow256_pos (length l)) as Hp.
    set (P := 256 ^ N.of_nat (length l)) in *.
    eapply N.lt_le_trans; [exact IH|].
    replace ((a + 1) * (256 * P)) with ((a * 256 + 256) * P) by lia.
    apply N.mul_le_mono_r. lia.
Qed.

Lemma be_dec_bound l : bytes_ok l -> be_dec l < 256 ^ N.of_nat (length l).
Proof. intros H. pose proof (be_dec_acc_bound l 0 H) as B. unfold be_dec. lia. Qed.

Lemma skipn_app_exact {A} (l1 l2 : list A) : skipn (length l1) (l1 ++ l2) = l2.
Proof. rewrite skipn_app, skipn_all, Nat.sub_diag. reflexivity. Qed.

Lemma firstn_app_exact {A} (l1 l2 : list A) : firstn (length l1) (l1 ++ l2) = l1.
Proof. rewrite firstn_app, firstn_all, Nat.sub_diag; cbn. apply app_nil_r. Qed.

Lemma slice_skip off k l1 l2 :
  (length l1 <= off)%nat -> slice off k (l1 ++ l2) = slice (off - length l1) k l2.
Proof.
  intros H. unfold slice. rewrite skipn_app.
  rewrite (skipn_all2 l1) by exact H. reflexivity.
Qed.

Lemma slice_here k l1 l2 :
  length l1 = k -> slice 0 k (l1 ++ l2) = l1.
Proof. intros H. unfold slice. cbn [skipn]. subst k. apply firstn_app_exact. Qed.

Lemma slice_length off k l :
  (off + k <= length l)%nat -> length (slice off k l) = k.
Proof. intros H. unfold slice. rewrite firstn_length, skipn_length. lia. Qed.

Lemma slice_app_l off k l1 l2 :
  (off + k <= length l1)%nat -> slice off k (l1 ++ l2) = slice off k l1.
Proof.
  intros H. unfold slice. rewrite skipn_app.
  rewrite firstn_app, skipn_length.
  replace (k - (length l1 - off))%nat with O by lia.
  cbn [firstn]. apply app_nil_r.
Qed.

Lemma slice_enc_skip off k j v l :
  (j <= off)%nat -> slice off k (be_enc j v ++ l) = slice (off - j) k l.
Proof. intros H. rewrite slice_skip; rewrite be_enc_length; auto. Qed.

Lemma fld_skip off k j v l :
  (j <= off)%nat -> fld off k (be_enc j v ++ l) = fld (off - j) k l.
Proof. intros H. unfold fld. rewrite slice_enc_skip; auto. Qed.

Lemma fld_here k v l : fld 0 k (be_enc k v ++ l) = v mod 256 ^ N.of_nat k.
Proof. unfold fld. rewrite slice_here by apply be_enc_length. apply be_dec_enc. Qed.

Lemma fld_here0 k v : fld 0 k (be_enc k v) = v mod 256 ^ N.of_nat k.
Proof. rewrite <- (app_nil_r (be_enc k v)). apply fld_here. Qed.

Lemma slice_here_enc k v l : slice 0 k (be_enc k v ++ l) = be_enc k v.
Proof. apply slice_here, be_enc_length. Qed.

Lemma overlay_length off d l :
  (off + length d <= length l)%nat -> length (overlay off d l) = length l.
Proof.
  intros H. unfold overlay. rewrite !app_length, firstn_length, skipn_length. lia.
Qed.

Lemma overlay_at0 d l : overlay 0 d l = d ++ skipn (length d) l.
Proof. reflexivity. Qed.

(** Walk over a concatenation of encoded fields. *)
Ltac fld_walk :=
  repeat first
    [ rewrite fld_skip by lia; cbn [Nat.sub]
    | rewrite fld_here
    | rewrite fld_here0
    | rewrite slice_enc_skip by lia; cbn [Nat.sub]
    | rewrite slice_here_enc ].

(** For examples on literals. *)
Ltac lits :=
  cbn; repeat match goal with
  | |- _ /\ _ => split
  | |- Forall _ _ => constructor
  | |- is_byte _ => unfold is_byte
  | |- bytes_ok _ => unfold bytes_ok
  | |- _ \/ _ => first [left; reflexivity | right; reflexivity | right]
  | |- _ -> _ => intros
  | |- _ <> _ => discriminate
  | |- True => exact I
  | |- (_ < _)%N => reflexivity
  | |- (_ <= _)%nat => lia
  | |- _ = _ => reflexivity
  | H : _ = _ |- _ => discriminate H
  end.

Lemma skipn_add {A} n m (l : list A) : skipn n (skipn m l) = skipn (m + n) l.
Proof. revert l; induction m as [|m IH]; intros [|x l]; cbn; auto. now destruct n. Qed.
Lemma firstn_add {A} n m (l : list A) : firstn (n + m) l = firstn n l ++ firstn m (skipn n l).
Proof.
  revert l; induction n as [|n IH]; intros [|x l]; cbn; auto; [now destruct m|].
  f_equal. apply IH.
Qed.

Lemma firstn_app_len {A} n (a b : list A) : length a = n -> firstn n (a ++ b) = a.
Proof. intros <-. apply firstn_app_exact. Qed.
Lemma skipn_app_len {A} n (a b : list A) : length a = n -> skipn n (a ++ b) = b.
Proof. intros <-. apply skipn_app_exact. Qed.

Lemma Ok_inj {A} (a b : A) : Ok a = Ok b -> a = b.
Proof. intros H. injection H as H. exact H. Qed.
Lemma Ok_pair {A B} (a b : A) (x y : B) : Ok (a, x) = Ok (b, y) -> b = a /\ y = x.
Proof. intros H. injection H as -> ->. auto. Qed.
