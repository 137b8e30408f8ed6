(** What the Ethernet MAC has to do, stated on the operations and on what leaves it. *)
From Verif Require Import Base CrcSpec MrmacModel.
Open Scope N_scope.

(** A packet followed by its frame check sequence. *)
Definition sealed (p : list N) : list N := p ++ le_enc 4 (crc_ieee p).
Definition rightb (f : list N) : bool :=
  let n := (length f - 4)%nat in le_dec (skipn n f) =? crc_ieee (firstn n f).

(** The packets user logic has handed over, cut at end of packet, and the bytes of the one it
    has begun. *)
Fixpoint packets (begun : list N) (l : list op) : list (list N) * list N :=
  match l with
  | [] => ([], begun)
  | OTx d true :: l' => let (ps, r) := packets [] l' in ((begun ++ d) :: ps, r)
  | OTx d false :: l' => packets (begun ++ d) l'
  | _ :: l' => packets begun l'
  end.

(** Frames from the line, in order. *)
Fixpoint arrived (ins : bool) (l : list op) : list (list N) :=
  match l with
  | [] => []
  | OPhy d _ :: l' => (if ins then sealed d else d) :: arrived ins l'
  | _ :: l' => arrived ins l'
  end.

(** At most two frames wait at any time, [n] of them at first. *)
Fixpoint paced (n : nat) (l : list op) : Prop :=
  match l with
  | [] => True
  | OPhy _ _ :: l' => (n < 2)%nat /\ paced (S n) l'
  | OTurn :: l' => paced (pred n) l'
  | _ :: l' => paced n l'
  end.

(** Operations in normal use which leave the configuration alone: frames from the line hold at
    least a header, register accesses are of at most four bytes and within the modelled
    registers, the configuration registers and reset are not touched. *)
Definition steady (o : op) : Prop :=
  match o with
  | OTx d _ => bytes_ok d
  | OPhy d _ => bytes_ok d /\ 14 <= N.of_nat (length d) < 2 ^ 31 - 4
  | OTurn => True
  | OReg r a d =>
      bytes_ok d /\ (length d <= 4)%nat /\ (length d = 4%nat -> known a = true) /\
      (r = false -> a <> A_TX1 /\ a <> A_RX1 /\ a <> A_MODE)
  | OReset => False
  end.

Definition sent (l : list out) : list (list N) :=
  flat_map (fun o => match o with PhyTx f => [f] | _ => [] end) l.
Definition delivered (l : list out) : list (list N) :=
  flat_map (fun o => match o with MacRx f _ => [f] | _ => [] end) l.
Definition taken (l : list out) : list (list N) :=
  flat_map (fun o => match o with RxTook f => [f] | _ => [] end) l.

(** What one frame adds to a counter. *)
Definition between (lo hi : N) (f : list N) : bool :=
  (lo <=? N.of_nat (length f)) && (N.of_nat (length f) <=? hi).
Definition to_group (f : list N) : bool := N.testbit (nth 0 f 0) 0.
Definition to_all (f : list N) : bool :=
  forallb (fun i => nth i f 0 =? 0xff) [0; 1; 2; 3; 4; 5]%nat.
Definition has_type (t : N) (f : list N) : bool :=
  (nth 12 f 0 =? t / 256) && (nth 13 f 0 =? t mod 256).
Definition one (b : bool) : N := if b then 1 else 0.
Definition weight (c : ctr) (good : bool) (f : list N) : N :=
  match c with
  | TotalPackets => 1
  | TotalGoodPackets => one good
  | TotalBytes => N.of_nat (length f)
  | TotalGoodBytes => if good then N.of_nat (length f) else 0
  | P64 => one (between 64 64 f)
  | P65_127 => one (between 65 127 f)
  | P128_255 => one (between 128 255 f)
  | P256_511 => one (between 256 511 f)
  | P512_1023 => one (between 512 1023 f)
  | P1024_1518 => one (between 1024 1518 f)
  | P1519_1522 => one (between 1519 1522 f)
  | P1523_1548 => one (between 1523 1548 f)
  | P1549_2047 => one (between 1549 2047 f)
  | P2048_4095 => one (between 2048 4095 f)
  | P4096_8191 => one (between 4096 8191 f)
  | P8192_9215 => one (between 8192 9215 f)
  | PLarge => one (9216 <=? N.of_nat (length f))
  | PSmall => one (N.of_nat (length f) <=? 63)
  | BadFcs => one (negb good)
  | Unicast => one (good && negb (to_group f))
  | Multicast => one (good && to_group f && negb (to_all f))
  | Broadcast => one (good && to_all f)
  | Vlan => one (good && has_type 0x8100 f)
  | Pause => one (good && has_type 0x8808 f)
  end.

(** The frames that went in a direction. *)
Definition went (d : dir) (l : list out) : list (list N) :=
  match d with Tx => sent l | Rx => taken l end.
(** [good] tells which frames count as good. *)
Definition total (good : list N -> bool) (d : dir) (c : ctr) (l : list out) : N :=
  fold_right (fun f n => weight c (good f) f + n) 0 (went d l).

(** What left since the last tick. *)
Fixpoint since (l : list out) : list out :=
  match l with
  | [] => []
  | o :: l' => if existsb (fun o => match o with Ticked => true | _ => false end) l
               then since l' else l
  end.

(** A statistic as software reads it, from two registers. *)
Definition shown (s : mst) (d : dir) (c : ctr) : N :=
  m_regs s (a_stat d c) + 2 ^ 32 * m_regs s (a_stat d c + 4).

(** The configuration, as the register manual names it. *)
Definition good_tx (s : mst) (f : list N) : bool := tx_ins s || tx_ignore s || rightb f.
Definition good_rx (s : mst) (f : list N) : bool := rx_ignore s || rightb f.

Definition write_tick : op := OReg false A_TICK [1; 0; 0; 0].

(** Nothing is under way. *)
Definition idle (s : mst) : Prop := m_txbuf s = [] /\ m_fifo s = [].
Definition good_of (s : mst) (d : dir) : list N -> bool :=
  match d with Tx => good_tx s | Rx => good_rx s end.
Definition bins : list ctr :=
  [P64; P65_127; P128_255; P256_511; P512_1023; P1024_1518; P1519_1522; P1523_1548; P1549_2047;
   P2048_4095; P4096_8191; P8192_9215; PLarge; PSmall].
Definition sum (l : list N) : N := fold_right N.add 0 l.
