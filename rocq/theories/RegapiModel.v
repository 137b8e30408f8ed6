(** Model of utils/bitops.h and utils/regapi.h.

    [w] is the width of the register type T in bits (8, 16, 32 or 64).  Not
    modelled: map_sc_bv2v, the debug printing, the fields rsvd and unimp (never
    used), the delay. *)
From Verif Require Import Base TlmModel TlmSpec.
Open Scope N_scope.

(** bitops_mask32, bitops.h l.29-37 *)
Definition mask32 (bitlen : N) : res N :=
  if 32 <? bitlen then AssertFail
  else if bitlen =? 32 then Ok (u32 - 1)
  else if 32 <=? bitlen then UB   (* 1U << 32 *)
  else Ok ((N.shiftl 1 bitlen - 1) mod u32).

(** bitops_field32, l.39-49 *)
Definition field32 (val bit len : N) : res N :=
  if (32 <=? bit) || (32 <? len) then AssertFail
  else rbind (mask32 len) (fun m => Ok (N.land (N.shiftr val bit) m)).

(** bitops_mask64, l.51-63 *)
Definition mask64 (start len : N) : N :=
  if (64 <=? start) || (len =? 0) then 0
  else
    let v := u64 - 1 in
    let v := if len <? 64 then N.shiftr v (64 - len) else v in
    N.shiftl v start mod u64.

(** sc_bv2buf, l.79-89: [v] is the value of an sc_bv<width>; bytes 0, 1, ... of
    the buffer that are written.  The loop runs for i = 0, 8, ... below both
    width and bitlen. *)
Definition bv_bytes (width bitlen : nat) : nat := ((Nat.min width bitlen + 7) / 8)%nat.
Definition bv2buf (v : N) (width bitlen : nat) (buf : list N) : res (list N) :=
  if negb (width mod 8 =? 0)%nat then AssertFail
  else
    let n := bv_bytes width bitlen in
    if (length buf <? n)%nat then UB
    else Ok (map (fun i => N.land (N.shiftr v (8 * N.of_nat i)) 255) (seq 0 n) ++ skipn n buf).

(** sc_buf2bv, l.92-102: range(i+7, i) = buf[i / 8] *)
Definition set_byte (v : N) (i : nat) (b : N) : N :=
  N.lor (N.ldiff v (N.shiftl 255 (8 * N.of_nat i))) (N.shiftl b (8 * N.of_nat i)).
Definition buf2bv (buf : list N) (v : N) (width bitlen : nat) : res N :=
  if negb (width mod 8 =? 0)%nat then AssertFail
  else
    let n := bv_bytes width bitlen in
    if (length buf <? n)%nat then UB
    else Ok (fold_left (fun v i => set_byte v i (nth i buf 0)) (seq 0 n) v).

(** regapi_block::reg_deposit, regapi.h l.82-86.  Shifting a T by its width or
    more is undefined. *)
Definition reg_deposit (w dst shift len val : N) : res N :=
  if w <=? shift then UB
  else Ok (N.lor (N.ldiff dst (mask64 shift len)) (N.shiftl val shift mod 2 ^ w)).

(** FIELD_EX, l.41-42 *)
Definition field_ex (v shift len : N) : res N :=
  if (64 <=? shift) || (64 <=? len) then UB
  else Ok (N.land (N.shiftr v shift) (N.shiftl 1 len - 1)).

(** regapi_info, l.52-63 *)
Record rinfo := mkRinfo {
  ri_addr : N; ri_ro : N; ri_w1c : N; ri_reset : N; ri_cor : N }.

(** The search of reg_access, l.95-101: the first R_MAX descriptions. *)
Fixpoint find_info (info : list rinfo) (addr : N) : option rinfo :=
  match info with
  | [] => None
  | i :: info' => if addr =? ri_addr i then Some i else find_info info' addr
  end.

Definition set_reg (regs : list N) (i : nat) (v : N) : list N :=
  firstn i regs ++ v :: skipn (S i) regs.

(** reg_access, l.88-138; R_MAX is [length regs].  New registers, status,
    returned value. *)
Definition reg_access (sz : N) (info : list rinfo) (regs : list N) (addr : N) (is_read : bool)
    (val : N) : res (list N * status * N) :=
  match find_info (firstn (length regs) info) addr with
  | None => Ok (regs, St_ADDRESS, 0)
  | Some i =>
    let ix := N.to_nat (addr / sz) in
    if (length regs <=? ix)%nat then UB
    else
      let old := nth ix regs 0 in
      let new :=
        if is_read then N.ldiff old (ri_cor i)
        else
          let v := if negb (ri_ro i =? 0)
                   then N.lor (N.land old (ri_ro i)) (N.ldiff val (ri_ro i))
                   else val in
          N.ldiff v (ri_w1c i) in
      Ok (set_reg regs ix new, St_OK, new)
  end.

(** reg_b_transport, l.158-177, on a little-endian host. *)
Definition reg_transport (sz : N) (info : list rinfo) (regs : list N) (g : gp)
  : res (list N * (list N * status)) :=
  if negb (sz =? g_len g) then Ok (regs, (g_data g, St_GENERIC))
  else
    let is_read := match g_cmd g with C_READ => true | _ => false end in
    let val := if is_read then 0 else le_dec (g_data g) in
    rbind (reg_access sz info regs (g_addr g) is_read val) (fun '(regs', st, v) =>
      Ok (regs', (if is_read then le_enc (N.to_nat sz) v else g_data g, st))).

(** reg_reset, l.141-148 *)
Definition reg_reset (sz : N) (i : rinfo) (regs : list N) : res (list N) :=
  let ix := N.to_nat (ri_addr i / sz) in
  if (length regs <=? ix)%nat then AssertFail else Ok (set_reg regs ix (ri_reset i)).

(** reg_reset_all, l.150-156 *)
Fixpoint reset_list (sz : N) (info : list rinfo) (regs : list N) : res (list N) :=
  match info with
  | [] => Ok regs
  | i :: info' => rbind (reg_reset sz i regs) (fun regs' => reset_list sz info' regs')
  end.
Definition reg_reset_all (sz : N) (info : list rinfo) (regs : list N) : res (list N) :=
  reset_list sz (firstn (length regs) info) regs.

(** A sequence of bus transactions; every answer is kept. *)
Fixpoint reg_run (sz : N) (info : list rinfo) (regs : list N) (ops : list gp)
  : res (list N * list (list N * status)) :=
  match ops with
  | [] => Ok (regs, [])
  | g :: ops' =>
    rbind (reg_transport sz info regs g) (fun '(regs', r) =>
    rbind (reg_run sz info regs' ops') (fun '(regs'', rs) => Ok (regs'', r :: rs)))
  end.
