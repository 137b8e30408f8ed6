(** Model of tlm-modules/tlm-aligner.h (class tlm_aligner).

    Modelled: compute_natural_alignment (l.97-107), compute_max_addr_range
    (l.109-118), b_transport (l.120-217).  Not modelled: DMI hints, extensions
    (deep_copy_from clones them for the chunks), the delay argument (passed
    through), allocation failure of [be]. *)
From Verif Require Import Base TlmModel TlmSpec.
Open Scope N_scope.

(** Constructor arguments, l.53-66; [ac_valid] is the optional IValidator. *)
Record acfg := mkAcfg {
  ac_bus : N; ac_max : N; ac_bound : N; ac_nat : bool;
  ac_valid : option (N -> N -> N -> bool) }.

(** l.97-107; unsigned negation is 2^64 - addr. *)
Definition natural_alignment (addr : N) : N :=
  if addr =? 0 then u64 - 1 else N.land addr (u64 - addr).

(** l.109-118; a zero boundary divides by zero. *)
Definition max_addr_range (c : acfg) (addr na : N) : N :=
  let len := N.min (ac_max c) (ac_bound c - addr mod ac_bound c) in
  if ac_nat c then N.min len (na - addr mod na) else len.

(** l.157-166: two copies of the byte enables. *)
Definition be_twice (g : gp) : list N :=
  match g_be g with None => [] | Some b => b ++ b end.

(** Body of the loop up to the asserts, l.170-193: address, length and
    streaming width of the chunk at [pos].  [sw] is the adjusted streaming
    width, [cur] the one currently set in the chunk payload. *)
Definition chunk_shape (c : acfg) (addr len sw pos cur : N) : N * N * N :=
  let t_addr := (addr + pos mod sw) mod u64 in
  let range := max_addr_range c t_addr (natural_alignment t_addr) in
  let t_len := N.min (len - pos) range in
  if negb (pos mod sw =? 0) then
    let t_len := N.min t_len (sw - pos mod sw) in (t_addr, t_len, t_len)
  else if negb (sw =? len) then
    if match ac_valid c with Some v => v t_addr t_len sw | None => false end
    then (t_addr, t_len, sw)
    else let t_len := N.min t_len (N.min (ac_bus c / 8) sw) in
         (t_addr, t_len, t_len)
  else (t_addr, t_len, cur).

(** l.169-212: the while loop.  [fuel] bounds the iterations; running out is
    shown not to happen. *)
Fixpoint align_loop {S} (fuel : nat) (c : acfg) (t : target S) (g : gp) (sw : N)
    (s : S) (buf : list N) (pos cur : N) (st : status)
  : res (S * (list N * status)) :=
  if g_len g <=? pos then Ok (s, (buf, st))
  else match fuel with
  | O => Unmodelled
  | Datatypes.S fuel' =>
    let '(t_addr, t_len, t_sw) := chunk_shape c (g_addr g) (g_len g) sw pos cur in
    if (t_len =? 0) || (ac_max c <? t_len) then AssertFail
    else
      let be := if g_be_len g =? 0 then None
                else Some (slice (N.to_nat (pos mod g_be_len g))
                                 (N.to_nat (g_be_len g)) (be_twice g)) in
      let chunk := mkGp (g_cmd g) t_addr
                        (slice (N.to_nat pos) (N.to_nat t_len) buf) be t_sw st in
      let '(s', (d, st')) := t s chunk in
      let buf' := overlay (N.to_nat pos) d buf in
      match st' with
      | St_OK => align_loop fuel' c t g sw s' buf' (pos + t_len) t_sw st'
      | _ => Ok (s', (buf', st'))
      end
  end.

(** l.120-217 *)
Definition align_transport {S} (c : acfg) (t : target S) (s : S) (g : gp)
  : res (S * (list N * status)) :=
  if ac_bound c =? 0 then UB
  else
    let na := natural_alignment (g_addr g) in
    let range := max_addr_range c (g_addr g) na in
    let len := g_len g in
    let sw := if g_sw g =? 0 then len else g_sw g in
    if (negb (ac_nat c) || (g_addr g mod na =? 0)) && (len <? ac_max c) &&
       (len =? range) && (sw =? len)
    then Ok (t s g)
    else align_loop (length (g_data g)) c t g sw s (g_data g) 0 (g_sw g) (g_status g).
