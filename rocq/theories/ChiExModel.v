(** Model of exclusive accesses in CHI.

    At the requester, tlm-modules/cache-chi.h: LPExclusiveMonitor (l.1813-1851),
    HandleLoad and HandleStore for exclusive payloads (l.1900-1969, l.1971-2050), the
    reset on a snoop (l.803-805).  At the home, tlm-modules/iconnect-chi.h:
    ExclusiveMonitor (l.3110-3169) and RouteInternal (l.3297-3322).

    Simplified: of a cache line only whether it is valid and unique is kept; a cache
    has room for every line and [Evict] stands for a line that is displaced
    (InvalidateCacheLine, cache-chi.h l.536-569); snoops come between two calls, not
    during one; one security state; lines are full.  Data is not kept: a store yields the addresses
    of the pieces written. *)
From Verif Require Import Base.
Open Scope N_scope.

(** CACHELINE_SZ; get_tag as the address of the line *)
Definition LSZ : N := 64.
Definition line_of (a : N) : N := a / LSZ * LSZ.

(** *** The requester *)
Inductive lstat := Inv | Shared | Unique.
Record xcache := mkXc {
  xc_line : N -> lstat;     (* by the address of the line *)
  xc_mon : list N }.        (* m_monitor.m_addr *)
Definition xc_init : xcache := mkXc (fun _ => Inv) [].

(** LPExclusiveMonitor, cache-chi.h l.1813-1851 *)
Definition mon_in (a : N) (l : list N) : bool := existsb (N.eqb a) l.
Definition mon_set (a : N) (l : list N) : list N := if mon_in a l then l else l ++ [a].
Definition mon_reset (a : N) (l : list N) : list N := filter (fun x => negb (x =? a)) l.

Definition set_line (c : xcache) (a : N) (s : lstat) : xcache :=
  mkXc (fun x => if x =? line_of a then s else xc_line c x) (xc_mon c).
Definition valid (c : xcache) (a : N) : bool :=
  match xc_line c (line_of a) with Inv => false | _ => true end.
Definition unique (c : xcache) (a : N) : bool :=
  match xc_line c (line_of a) with Unique => true | _ => false end.

(** The pieces of an access, one for each line: ToWrite, cache-chi.h l.341-354, and
    the same lines of ReadLine and WriteLine (l.255-312). *)
Fixpoint pieces (fuel : nat) (a n : N) : list N :=
  match fuel with
  | O => []
  | S f => if n =? 0 then []
           else let k := N.min n (LSZ - a mod LSZ) in a :: pieces f (a + k) (n - k)
  end.
Definition pieces_of (a n : N) : list N := pieces (N.to_nat n) a n.

(** HandleLoad of an exclusive payload, cache-chi.h l.1900-1969, piece by piece.
    [resp] is whether the payload's RespErr is ExclusiveOkay: nothing in the cache
    sets it from a response, only HandleLoad and HandleStore themselves do.  [fetch]
    is whether ReadShared brings the line unique. *)
Fixpoint xload_pieces (c : xcache) (resp failed : bool) (fetch : N -> bool) (ps : list N)
  : xcache * bool * bool :=
  match ps with
  | [] => (c, resp, failed)
  | a :: ps' =>
    if valid c a then xload_pieces c resp failed fetch ps'
    else
      let c1 := set_line c a (if fetch (line_of a) then Unique else Shared) in
      xload_pieces (mkXc (xc_line c1) (mon_set a (xc_mon c1))) false
        (failed || negb resp) fetch ps'
  end.
Definition xload (c : xcache) (a n : N) (resp : bool) (fetch : N -> bool) : xcache * bool :=
  let '(c', resp', failed) := xload_pieces c resp false fetch (pieces_of a n) in
  (c', if failed then resp' else true).

(** HandleStore of an exclusive payload, l.1971-2050: the state, RespErr, the pieces
    written and whether all of them were. *)
Fixpoint xstore_pieces (c : xcache) (resp : bool) (done : list N) (ps : list N)
  : xcache * bool * list N * bool :=
  match ps with
  | [] => (c, resp, done, true)
  | a :: ps' =>
    if negb (mon_in a (xc_mon c)) then (c, resp, done, false)
    else if valid c a && negb (unique c a) && negb resp
    then (* CleanUnique, and no ExclusiveOkay in the payload, l.2000-2007 *)
      (mkXc (xc_line (set_line c a Unique)) (mon_reset a (xc_mon c)), resp, done, false)
    else
      let resp' := if valid c a && negb (unique c a) then false else resp in
      xstore_pieces (mkXc (xc_line (set_line c a Unique)) (mon_reset a (xc_mon c))) resp'
        (done ++ [a]) ps'
  end.
Definition xstore (c : xcache) (a n : N) (resp : bool) : xcache * bool * list N :=
  let '(c', resp', done, all) := xstore_pieces c resp [] (pieces_of a n) in
  (c', if all then true else resp', done).

(** What happens to a cache.  [Other a]: another requester takes the line for
    writing; the home snoops a cache that has it, and the line becomes invalid
    (HandleSnp, l.749-805).  [Share a]: another one reads it. *)
Inductive xev :=
| XLoad (a n : N) (resp : bool) (fetch : N -> bool)
| XStore (a n : N) (resp : bool)
| Other (a : N)
| Share (a : N)
| Evict (a : N).
Definition xstep (c : xcache) (e : xev) : xcache :=
  match e with
  | XLoad a n resp fetch => fst (xload c a n resp fetch)
  | XStore a n resp => fst (fst (xstore c a n resp))
  | Other a => if valid c a
               then mkXc (xc_line (set_line c a Inv)) (mon_reset (line_of a) (xc_mon c))
               else c
  | Share a => if unique c a then set_line c a Shared else c
  | Evict a => set_line c a Inv
  end.
Definition xrun (c : xcache) (es : list xev) : xcache := fold_left xstep es c.

(** *** The home *)
Record hreq := mkHreq {
  h_op : N; h_lpid : N; h_addr : N; h_src : N; h_excl : bool; h_snp : bool }.
(** amba-chi.h l.42-86 *)
Definition OP_ReadShared : N := 1.
Definition OP_ReadClean : N := 2.
Definition OP_CleanUnique : N := 11.
Definition OP_ReadNotSharedDirty : N := 38.
(** IsAtomic, iconnect-chi.h l.385-391 *)
Definition h_atomic (r : hreq) : bool := (40 <=? h_op r) && (h_op r <=? 57).
(** IsSnoopingReq, l.472-518 *)
Definition h_snooping (r : hreq) : bool :=
  existsb (N.eqb (h_op r)) [3; 36; 37; 2; 38; 1; 7; 11; 12; 8; 39; 9; 10; 35; 34; 25; 24; 32; 33; 40; 48; 56; 57; 20].
(** IsExclusive of the monitor, l.3154-3166 *)
Definition h_registers (r : hreq) : bool :=
  existsb (N.eqb (h_op r)) [OP_ReadClean; OP_ReadNotSharedDirty; OP_ReadShared; OP_CleanUnique].

(** HandleExclusive, l.3113-3137: m_LPIDs and the result. *)
Definition handle_excl (l : list N) (r : hreq) : list N * bool :=
  let pass := (h_op r =? OP_CleanUnique) && mon_in (h_lpid r) l in
  let l1 := if pass then [] else l in
  (if h_registers r then l1 ++ [h_lpid r] else l1, pass).

(** RouteInternal, l.3297-3322: m_LPIDs, whether the request goes to the point of
    coherency (and other caches are snooped), and whether its RespErr is set to
    ExclusiveOkay. *)
Record routed := mkRouted { ro_poc : bool; ro_okay : bool }.
Definition route (l : list N) (r : hreq) : list N * routed :=
  if negb (h_atomic r) && h_excl r
  then let '(l', pass) := handle_excl l r in (l', mkRouted (h_snp r && h_snooping r && pass) pass)
  else (l, mkRouted (h_snp r && h_snooping r) false).
Fixpoint route_all (l : list N) (rs : list hreq) : list (hreq * routed) :=
  match rs with
  | [] => []
  | r :: rs' => let '(l', o) := route l r in (r, o) :: route_all l' rs'
  end.
