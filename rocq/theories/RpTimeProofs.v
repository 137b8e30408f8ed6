From Verif Require Import Base RpTimeModel.
Open Scope Z_scope.

(** Local offsets within the quantum; delays and targets do not go back. *)
Definition in_quantum (c : clk) : Prop :=
  0 <= k_local c <= k_quantum c /\ 1 <= k_quantum c.
Definition forward (c : clk) (o : top) : Prop :=
  match o with
  | TInc d => 0 <= d
  | TTransport d => k_local c <= d
  | _ => True
  end.

Lemma account_bounds c r :
  in_quantum c ->
  cur c <= cur (account_time c r) /\
  Z.min r (k_now c + k_quantum c) <= cur (account_time c r) /\
  in_quantum (account_time c r).
Proof.
  destruct c as [now loc q]. unfold in_quantum, account_time, cur. cbn [k_now k_local k_quantum].
  intros (H1 & H2).
  destruct (Z.leb_spec r (now + loc)) as [A|A]; cbn zeta;
  match goal with |- context [k_quantum ?x <? ?d] => idtac | |- context [q <? ?d] =>
    destruct (Z.ltb_spec q d) end;
  match goal with |- context [q <=? ?d] => destruct (Z.leb_spec q d) end;
  unfold qk_set, qk_inc; cbn [k_now k_local k_quantum qk_set]; lia.
Qed.

Lemma account_sync_reaches r : forall n c,
  k_local c = 0 -> 1 <= k_quantum c ->
  Z.min r (k_now c + Z.of_nat n * k_quantum c)
    <= cur (Nat.iter n (fun x => qk_sync (account_time x r)) c) /\
  k_local (Nat.iter n (fun x => qk_sync (account_time x r)) c) = 0 /\
  k_quantum (Nat.iter n (fun x => qk_sync (account_time x r)) c) = k_quantum c.
Proof.
  induction n as [|n IH]; intros c H0 Hq.
  - cbn. unfold cur. lia.
  - change (Nat.iter (S n) (fun x => qk_sync (account_time x r)) c)
      with (qk_sync (account_time (Nat.iter n (fun x => qk_sync (account_time x r)) c) r)).
    destruct (IH c H0 Hq) as (I1 & I2 & I3).
    set (x := Nat.iter n (fun x => qk_sync (account_time x r)) c) in *.
    destruct (account_bounds x r) as (B1 & B2 & B3); [unfold in_quantum; lia|].
    assert (E : cur (qk_sync (account_time x r)) = cur (account_time x r))
      by (unfold cur, qk_sync; cbn; lia).
    rewrite E. split; [|split].
    + unfold cur in *. lia.
    + reflexivity.
    + unfold qk_sync. cbn [k_quantum]. rewrite <- I3. unfold account_time.
      destruct (_ <=? k_local _ + _); reflexivity.
Qed.

(** Time never goes back while offsets stay within the quantum. *)
Inductive mono_run : clk -> list top -> clk -> Prop :=
| mr_nil c : mono_run c [] c
| mr_cons c o os c' :
    forward c o -> in_quantum (tstep c o) -> mono_run (tstep c o) os c' -> mono_run c (o :: os) c'.

Lemma mono_run_trun c os c' : mono_run c os c' -> trun c os = c'.
Proof. induction 1; [reflexivity|exact IHmono_run]. Qed.

Lemma mono c os c' : in_quantum c -> mono_run c os c' -> cur c <= cur c'.
Proof.
  intros I R. revert I. induction R as [|c o os c' F Q R IH]; intros I; [lia|].
  specialize (IH Q). assert (cur c <= cur (tstep c o)); [|lia].
  destruct o as [r| |d|d]; cbn [tstep forward] in *.
  - apply account_bounds. exact I.
  - unfold cur, qk_sync. cbn. lia.
  - unfold cur, qk_inc, qk_set. cbn. lia.
  - unfold cur, qk_set. cbn. lia.
Qed.
