(** Running requests one after the other: used for the concrete histories in
    PropsAce.v only. *)
From Verif Require Import Base TlmModel TlmSpec AceSpec AceModel.
Open Scope N_scope.

Definition next_of (s : state) (m : nat) : option label :=
  match s_pc s m with
  | Idle | Wait _ _ => None
  | Head _ => Some (L_Local m)
  | Entered _ _ => Some (L_Engine m)
  | Snooping _ _ (j :: _) _ => Some (L_Snoop m j)
  | Snooping _ _ [] _ => Some (L_SnoopDone m)
  | DsWrite _ _ _ | Final _ _ _ | Wb _ _ _ => Some (L_Ds m)
  | Finished _ _ _ | WbDone _ _ _ => Some (L_Complete m)
  end.

Section Run.
Context (f : cfg).

(** let master [m] go on until it is idle or waits *)
Fixpoint drive (n : nat) (s : state) (m : nat) : list label * state :=
  match n with
  | O => ([], s)
  | S n' =>
    match next_of s m with
    | None => ([], s)
    | Some lb =>
      match step f s lb with
      | None => ([], s)
      | Some (s1, _) => let '(ls, s2) := drive n' s1 m in (lb :: ls, s2)
      end
    end
  end.

Inductive cmd :=
| Req (m : nat) (o : op)     (* a request, from start to end *)
| Go (m : nat)               (* let [m] go on *)
| Do (lb : label).           (* a single step *)

Fixpoint script (s : state) (l : list cmd) : list label :=
  match l with
  | [] => []
  | Req m o :: l' =>
    match step f s (L_Start m o) with
    | None => []
    | Some (s1, _) => let '(a, s2) := drive 200 s1 m in L_Start m o :: a ++ script s2 l'
    end
  | Go m :: l' => let '(a, s2) := drive 200 s m in a ++ script s2 l'
  | Do lb :: l' =>
    match step f s lb with
    | None => []
    | Some (s1, _) => lb :: script s1 l'
    end
  end.

Definition events (s : state) (ls : list label) : option (list event) := option_map snd (exec f s ls).
Lemma events_exec s ls es : events s ls = Some es -> exists s', exec f s ls = Some (s', es).
Proof.
  unfold events. destruct (exec f s ls) as [[s' e]|]; cbn; [|discriminate].
  intro H. injection H as <-. now exists s'.
Qed.
Definition final {A} (g : state -> A) (s : state) (ls : list label) : option A :=
  option_map (fun p => g (fst p)) (exec f s ls).
Lemma final_exec {A} (g : state -> A) s ls v :
  final g s ls = Some v -> exists s' es, exec f s ls = Some (s', es) /\ g s' = v.
Proof.
  unfold final. destruct (exec f s ls) as [[s' e]|]; cbn; [|discriminate].
  intro H. injection H as <-. now exists s', e.
Qed.
End Run.

(** Requests without byte enables. *)
Definition ld a n := mkOp O_Load a n None (repeat 0 (N.to_nat n)) false false.
Definition st a d := mkOp O_Store a (N.of_nat (length d)) None d false false.
Definition ldx a n := mkOp O_Load a n None (repeat 0 (N.to_nat n)) false true.
Definition stx a d := mkOp O_Store a (N.of_nat (length d)) None d false true.

(** A short form of a history: master, what, address, bytes, EXOKAY. *)
Inductive what := Rd | Wr | Fin (k : opkind).
Definition brief (e : event) : nat * what * N * list N * bool :=
  match e with
  | Ev_Read m _ l => (m, Rd, match l with a :: _ => a_addr a | [] => 0 end, map a_byte l, false)
  | Ev_Write m _ l => (m, Wr, match l with a :: _ => a_addr a | [] => 0 end, map a_byte l, false)
  | Ev_Done m o l ex => (m, Fin (o_kind o), o_addr o, map a_byte l, ex)
  end.

(** [reads_latest] decided *)
Fixpoint reads_latestb (w : world) (tr : list event) : bool :=
  match tr with
  | [] => true
  | e :: tr' =>
    match e with
    | Ev_Read _ sec l => forallb (fun a => negb (a_en a) || (a_byte a =? w sec (a_addr a))) l
    | _ => true
    end && reads_latestb (latest w e) tr'
  end.
Lemma reads_latestb_ok w tr : reads_latest w tr -> reads_latestb w tr = true.
Proof.
  revert w. induction tr as [|e tr IH]; intros w; cbn [reads_latest reads_latestb]; [reflexivity|].
  intros [H1 H2]. apply andb_true_intro. split; [|now apply IH]. destruct e; auto.
  apply forallb_forall. intros a Ha. destruct (a_en a) eqn:En; [|reflexivity]. cbn.
  apply N.eqb_eq. now apply H1.
Qed.

(** [excl_sound] decided *)
Fixpoint excl_soundb (v : nat -> option resv) (tr : list event) : bool :=
  match tr with
  | [] => true
  | e :: tr' =>
    match e with
    | Ev_Done m o _ true =>
      match o_kind o with
      | O_Store => negb (o_excl o) ||
          match v m with
          | Some rv => (rv_addr rv =? o_addr o) && (rv_len rv =? o_len o) && rv_stored rv
          | None => false
          end
      | _ => true
      end
    | _ => true
    end && excl_soundb (fun m => resv_step m (v m) e) tr'
  end.
Lemma excl_soundb_ok v tr : excl_sound v tr -> excl_soundb v tr = true.
Proof.
  revert v. induction tr as [|e tr IH]; intros v; cbn [excl_sound excl_soundb]; [reflexivity|].
  intros [H1 H2]. apply andb_true_intro. split; [|now apply IH].
  destruct e as [| |m o l []]; auto. destruct (o_kind o); auto. destruct (o_excl o); [|reflexivity].
  destruct (H1 eq_refl) as (rv & -> & <- & <- & ->). now rewrite !N.eqb_refl.
Qed.
