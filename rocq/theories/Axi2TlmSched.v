(** Model of the scheduling in tlm-bridges/axi2tlm-bridge.h, for one direction
    (reads or writes) and without reset: acceptance (assert_arready l.863-877,
    read_address_phase l.879-957, assert_awready l.1066-1080,
    write_address_phase l.1082-1145), end of write data (write_data_phase
    l.1226-1251), threads (RunTLMTransaction l.778-848 with GetFirstWithID
    l.656, InList l.670, OverlappingAddress l.713, is_after_barrier l.727,
    WaitForTransactions l.740), answers (read_data_phase l.959-1059,
    write_resp_phase l.1269-1327).  Threads are SystemC processes: a step runs
    from one wait to the next.  Signal timing, the phases of the target and the
    snoop channels are not modelled. *)
From Verif Require Import Base.
Open Scope N_scope.

(** A transaction: its object, AxID, 4K page (address >> 12), barrier, and
    WriteBack/WriteClean/Evict (free to pass barriers). *)
Record tr := mkTr { t_obj : N; t_id : N; t_page : N; t_bar : bool; t_free : bool }.

Definition same (a b : tr) : bool := t_obj a =? t_obj b.

Inductive phase := P_Start | P_Wait (t : tr) | P_Busy (t : tr) | P_Blocked (t : tr).

(** [n_tx] counts all transactions, [n_bar] the barriers; both are 0 at start.
    [arrived], [entered], [issued], [finished] and [answered] are logs. *)
Record sched := mkS {
  s_data : list tr;      (* wrDataList *)
  s_list : list tr;      (* rtList or wtList *)
  s_thr : list (N * phase);
  s_fifo : list tr;      (* rdDataFifo or wrRespFifo *)
  s_resp : option tr;    (* being answered *)
  n_tx : N; n_bar : N;
  arrived : list tr; entered : list tr; issued : list tr; finished : list tr; answered : list tr }.

Definition MAX_TX : N := 16.    (* l.217 *)
Definition FIFO : nat := 16.    (* sc_fifo default size *)
Definition MAX_BAR : N := 256.  (* amba-ace.h l.165 *)
Definition sched0 : sched := mkS [] [] [] [] None 0 0 [] [] [] [] [].

Definition first_with_id (l : list tr) (id : N) : option tr := find (fun t => t_id t =? id) l.
Definition in_list (l : list tr) (id : N) : bool := existsb (fun t => t_id t =? id) l.
Definition ahead (l : list tr) (t : tr) : list tr :=
  (fix go l := match l with [] => [] | x :: l' => if same x t then [] else x :: go l' end) l.
Definition overlapping (l : list tr) (t : tr) : bool :=
  existsb (fun x => t_page x =? t_page t) (ahead l t).
Definition must_wait (ace : bool) (l : list tr) (t : tr) : bool :=
  (ace && (if t_bar t then negb (match l with x :: _ => same x t | [] => false end)
           else existsb t_bar (ahead l t) && negb (t_free t)))
  || overlapping l t.
Definition take_out (l : list tr) (t : tr) : list tr := filter (fun x => negb (same x t)) l.

(** Entering the list, starting a thread if none of the list has the id. *)
Definition enter (t : tr) (s : sched) : sched :=
  mkS (s_data s) (s_list s ++ [t])
      (if in_list (s_list s) (t_id t) then s_thr s else s_thr s ++ [(t_id t, P_Start)])
      (s_fifo s) (s_resp s) (n_tx s) (n_bar s)
      (arrived s) (entered s ++ [t]) (issued s) (finished s) (answered s).

Definition set_thr (j : nat) (p : option phase) (th : list (N * phase)) : list (N * phase) :=
  firstn j th ++ (match nth_error th j, p with Some (id, _), Some p => [(id, p)] | _, _ => [] end) ++ skipn (S j) th.

(** The head of the thread's loop (l.787-799). *)
Definition try_issue (ace : bool) (j : nat) (t : tr) (s : sched) : sched :=
  let go := negb (must_wait ace (s_list s) t) in
  mkS (s_data s) (s_list s) (set_thr j (Some (if go then P_Busy t else P_Wait t)) (s_thr s))
      (s_fifo s) (s_resp s) (n_tx s) (n_bar s) (arrived s) (entered s)
      (if go then issued s ++ [t] else issued s) (finished s) (answered s).
Definition pick (ace : bool) (j : nat) (id : N) (s : sched) : sched :=
  match first_with_id (s_list s) id with
  | Some t => try_issue ace j t s
  | None => mkS (s_data s) (s_list s) (set_thr j None (s_thr s)) (s_fifo s) (s_resp s) (n_tx s) (n_bar s)
                (arrived s) (entered s) (issued s) (finished s) (answered s)
  end.
(** fifo->write (l.838): blocks when full. *)
Definition push (ace : bool) (j : nat) (id : N) (t : tr) (s : sched) : sched :=
  if (length (s_fifo s) <? FIFO)%nat
  then pick ace j id
         (mkS (s_data s) (s_list s) (s_thr s) (s_fifo s ++ [t]) (s_resp s) (n_tx s) (n_bar s)
              (arrived s) (entered s) (issued s) (finished s ++ [t]) (answered s))
  else mkS (s_data s) (s_list s) (set_thr j (Some (P_Blocked t)) (s_thr s)) (s_fifo s) (s_resp s) (n_tx s) (n_bar s)
           (arrived s) (entered s) (issued s) (finished s) (answered s).
(** The target returned (l.804-840). *)
Definition complete (ace : bool) (j : nat) (id : N) (t : tr) (s : sched) : sched :=
  push ace j id t
    (mkS (s_data s) (take_out (s_list s) t) (s_thr s) (s_fifo s) (s_resp s) (n_tx s) (n_bar s)
         (arrived s) (entered s) (issued s) (finished s) (answered s)).

Inductive ev :=
| E_Addr (id page : N) (bar free data : bool)  (* address accepted; [data]: waits for write data *)
| E_Data (i : nat)               (* last write data beat of the [i]-th waiting write *)
| E_Thread (j : nat)
| E_Pop                          (* fifo.read() *)
| E_Resp.                        (* response taken by the master *)

Definition accepts (ace : bool) (s : sched) : bool :=
  (n_tx s - n_bar s <? MAX_TX) && (negb ace || (n_bar s <? MAX_BAR)).

(** [None]: the event cannot happen.  Objects are numbered as they are created.  A
    transaction without data enters the list at once only if no write waits for
    data (l.1125); reads never do.  Waiting writes of one id get their data in
    address order, in AXI4 because only the front of the queue does (l.1195), in
    AXI3 by GetFirstWithID (l.1205). *)
Definition step (ace : bool) (e : ev) (s : sched) : option sched :=
  match e with
  | E_Addr id page bar free data =>
    if negb (accepts ace s) then None
    else if negb data && negb (match s_data s with [] => true | _ => false end) then None
    else
      let t := mkTr (N.of_nat (length (arrived s))) id page bar free in
      let s1 := mkS (s_data s) (s_list s) (s_thr s) (s_fifo s) (s_resp s)
                    (n_tx s + 1) (if ace && t_bar t then n_bar s + 1 else n_bar s)
                    (arrived s ++ [t]) (entered s) (issued s) (finished s) (answered s) in
      Some (if data
            then mkS (s_data s1 ++ [t]) (s_list s1) (s_thr s1) (s_fifo s1) (s_resp s1) (n_tx s1) (n_bar s1)
                     (arrived s1) (entered s1) (issued s1) (finished s1) (answered s1)
            else enter t s1)
  | E_Data i =>
    match nth_error (s_data s) i with
    | Some t =>
      if in_list (firstn i (s_data s)) (t_id t) then None
      else Some (enter t (mkS (firstn i (s_data s) ++ skipn (S i) (s_data s)) (s_list s) (s_thr s) (s_fifo s) (s_resp s)
                              (n_tx s) (n_bar s) (arrived s) (entered s) (issued s) (finished s) (answered s)))
    | None => None
    end
  | E_Thread j =>
    match nth_error (s_thr s) j with
    | Some (id, P_Start) => Some (pick ace j id s)
    | Some (id, P_Wait t) => Some (try_issue ace j t s)
    | Some (id, P_Busy t) => Some (complete ace j id t s)
    | Some (id, P_Blocked t) => if (length (s_fifo s) <? FIFO)%nat then Some (push ace j id t s) else None
    | None => None
    end
  | E_Pop =>
    match s_resp s, s_fifo s with
    | None, t :: f => Some (mkS (s_data s) (s_list s) (s_thr s) f (Some t) (n_tx s) (n_bar s)
                                (arrived s) (entered s) (issued s) (finished s) (answered s))
    | _, _ => None
    end
  | E_Resp =>
    match s_resp s with
    | Some t => Some (mkS (s_data s) (s_list s) (s_thr s) (s_fifo s) None
                          (n_tx s - 1) (if ace && t_bar t then n_bar s - 1 else n_bar s)
                          (arrived s) (entered s) (issued s) (finished s) (answered s ++ [t]))
    | None => None
    end
  end.

Fixpoint steps (ace : bool) (es : list ev) (s : sched) : option sched :=
  match es with
  | [] => Some s
  | e :: es' => match step ace e s with Some s' => steps ace es' s' | None => None end
  end.
