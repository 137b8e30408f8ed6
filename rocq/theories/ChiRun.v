(** Running requests one after the other: used for the concrete histories in
    PropsChi.v only. *)
From Verif Require Import Base TlmModel TlmSpec AceSpec CachelineModel ChiModel.
Open Scope N_scope.

Section Run.
Context (f : cfg).
Context (junk : N -> bool).

(** What cache [i] (or the home, for it) can do next. *)
Definition next_of (s : state) (i : nat) (c : choice) : option label :=
  match s_t s i with
  | Idle => None
  | Run _ _ | Inval _ _ => Some (L_Thread i c)
  | Wait _ _ _ =>
    match s_h s with
    | None => Some (L_Home i)
    | Some w => match w_todo w with j :: _ => Some (L_Snoop j junk) | [] => Some L_Finish end
    end
  end.
Fixpoint drive (n : nat) (s : state) (i : nat) (c : choice) : list label * state :=
  match n with
  | O => ([], s)
  | S n' =>
    match next_of s i c with
    | None => ([], s)
    | Some lb =>
      match step f s lb with
      | Ok (s1, _) => let '(ls, s2) := drive n' s1 i c in (lb :: ls, s2)
      | _ => ([lb], s)
      end
    end
  end.

Inductive cmd :=
| Req (i : nat) (o : op) (c : choice)   (* a request, from start to end *)
| Go (i : nat) (c : choice)             (* let [i] go on *)
| Do (lb : label).                      (* a single step *)

Fixpoint script (s : state) (l : list cmd) : list label :=
  match l with
  | [] => []
  | Req i o c :: l' =>
    match step f s (L_Start i o) with
    | Ok (s1, _) => let '(a, s2) := drive 200 s1 i c in L_Start i o :: a ++ script s2 l'
    | _ => []
    end
  | Go i c :: l' => let '(a, s2) := drive 200 s i c in a ++ script s2 l'
  | Do lb :: l' =>
    match step f s lb with
    | Ok (s1, _) => lb :: script s1 l'
    | _ => [lb]
    end
  end.
End Run.

Definition events (f : cfg) (s : state) (ls : list label) : res (list event) := rmap snd (exec f s ls).
Lemma events_exec f s ls es : events f s ls = Ok es -> exists s', exec f s ls = Ok (s', es).
Proof.
  unfold events. destruct (exec f s ls) as [[s' e]| | |]; cbn; try discriminate.
  intro H. injection H as <-. now exists s'.
Qed.
Definition final {A} (f : cfg) (g : state -> A) (s : state) (ls : list label) : res A :=
  rmap (fun p => g (fst p)) (exec f s ls).
Lemma final_exec {A} f (g : state -> A) s ls v :
  final f g s ls = Ok v -> exists s' es, exec f s ls = Ok (s', es) /\ g s' = v.
Proof.
  unfold final. destruct (exec f s ls) as [[s' e]| | |]; cbn; try discriminate.
  intro H. injection H as <-. now exists s', e.
Qed.

(** Requests without byte enables. *)
Definition ld a n := mkOp O_Load a n None (repeat 0 (N.to_nat n)) false false.
Definition st a d := mkOp O_Store a (N.of_nat (length d)) None d false false.
Definition stb a d b := mkOp O_Store a (N.of_nat (length d)) (Some b) d false false.
(** No use of the random choices. *)
Definition c0 := mkChoice 0 false false false.
(** Reads of kind [k]. *)
Definition cr k := mkChoice k false false false.
(** Stores without allocation. *)
Definition cw := mkChoice 0 true false false.

(** A short form of a history. *)
Inductive what := Rd | Wr | Fin (k : opkind).
Definition brief (e : event) : nat * what * N * list N :=
  match e with
  | Ev_Read m _ l => (m, Rd, match l with a :: _ => a_addr a | [] => 0 end, map a_byte l)
  | Ev_Write m _ l => (m, Wr, match l with a :: _ => a_addr a | [] => 0 end, map a_byte l)
  | Ev_Done m o l _ => (m, Fin (o_kind o), o_addr o, map a_byte l)
  end.

Fixpoint reads_latestb (w : world) (tr : list event) : bool :=
  match tr with
  | [] => true
  | e :: tr' =>
    match e with
    | Ev_Read _ sec l => forallb (fun a => negb (a_en a) || (a_byte a =? w sec (a_addr a))) l
    | _ => true
    end && reads_latestb (latest w e) tr'
  end.
Lemma reads_latestb_ok w tr : reads_latest w tr -> reads_latestb w tr = true.
Proof.
  revert w. induction tr as [|e tr IH]; intros w; cbn [reads_latest reads_latestb]; [reflexivity|].
  intros [H1 H2]. apply andb_true_intro. split; [|now apply IH]. destruct e; auto.
  apply forallb_forall. intros a Ha. destruct (a_en a) eqn:En; [|reflexivity]. cbn.
  apply N.eqb_eq. now apply H1.
Qed.

(** Enough to see that a request was not answered with all its bytes. *)
Definition all_lengths (tr : list event) : bool :=
  forallb (fun e => match e with
    | Ev_Done _ o l _ =>
      match o_kind o with O_Load | O_Store => (o_excl o) || (N.of_nat (length l) =? o_len o) | _ => true end
    | _ => true end) tr.
Lemma all_lengths_ok tr : forall cur, served cur tr -> all_lengths tr = true.
Proof.
  induction tr as [|e tr IH]; intros cur; cbn [served]; [reflexivity|].
  intros [H1 H2]. cbn [all_lengths forallb]. apply andb_true_intro. split; [|eapply IH; exact H2].
  destruct e as [| |m o l ex]; auto. destruct H1 as [_ H1]. destruct (o_excl o); [now destruct (o_kind o)|].
  specialize (H1 eq_refl). unfold answered in H1.
  destruct (o_kind o); auto; cbn [orb]; apply N.eqb_eq.
  - apply (f_equal (@length _)) in H1. rewrite !map_length in H1. rewrite H1. unfold op_bytes. rewrite map_length, seq_length. lia.
  - rewrite H1. unfold op_bytes. rewrite map_length, seq_length. lia.
Qed.
