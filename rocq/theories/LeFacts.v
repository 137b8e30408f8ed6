(** Little-endian encoding and decoding. *)
From Verif Require Import Base BaseFacts.
Open Scope N_scope.

Lemma be_dec_acc_lin l : forall a, be_dec_acc a l = a * 256 ^ N.of_nat (length l) + be_dec l.
Proof.
  induction l as [|b l IH]; intro a; unfold be_dec; cbn [be_dec_acc length].
  - cbn. lia.
  - rewrite IH, (IH (0 * 256 + b)), pow256_S. lia.
Qed.
Lemma be_enc_dec_acc l : bytes_ok l -> forall a, be_enc (length l) (be_dec_acc a l) = l.
Proof.
  induction 1 as [|b l Hb Hl IH]; intro a; [reflexivity|]. cbn [be_enc length be_dec_acc]. rewrite IH. f_equal.
  rewrite be_dec_acc_lin. pose proof (be_dec_bound l Hl) as B. pose proof (pow256_pos (length l)).
  rewrite N.div_add_l by lia. rewrite N.div_small by exact B. rewrite N.add_0_r.
  rewrite N.add_comm, N.mod_add by lia. now apply N.mod_small.
Qed.
Lemma be_enc_dec l : bytes_ok l -> be_enc (length l) (be_dec l) = l.
Proof. intro H. now apply be_enc_dec_acc. Qed.

Lemma le_enc_length k v : length (le_enc k v) = k.
Proof. unfold le_enc. now rewrite rev_length, be_enc_length. Qed.
Lemma le_enc_bytes k v : bytes_ok (le_enc k v).
Proof. unfold le_enc, bytes_ok. apply Forall_rev, be_enc_bytes. Qed.
Lemma le_dec_enc k v : le_dec (le_enc k v) = v mod 256 ^ N.of_nat k.
Proof. unfold le_dec, le_enc. now rewrite rev_involutive, be_dec_enc. Qed.
Lemma le_enc_dec k l : length l = k -> bytes_ok l -> le_enc k (le_dec l) = l.
Proof.
  intros <- H. unfold le_enc, le_dec. rewrite <- (rev_length l), be_enc_dec; [apply rev_involutive|].
  now apply Forall_rev.
Qed.
Lemma le_dec_bound l : bytes_ok l -> le_dec l < 256 ^ N.of_nat (length l).
Proof. intro H. unfold le_dec. rewrite <- rev_length. apply be_dec_bound. now apply Forall_rev. Qed.
