(** Model of soc/dma/xilinx-cdma.h (class xilinx_cdma).

    Modelled: the register file and b_transport (l.137-178), do_dma_copy
    (l.76-119), do_dma_trans (l.121-135).  The copying thread is described from
    one wait(ev_dma_copy) to the next, without register accesses in between (the
    thread yields once per block, l.102, so a driver could interfere; see
    [cdma_block] for one block).  Not modelled: time; a wake-up by a write of
    zero to BTT (one pair of zero-length transactions). *)
From Verif Require Import Base TlmModel TlmSpec RegapiModel.
Open Scope N_scope.

(** Register numbers and bits, l.47-71 *)
Definition R_CR : nat := 0.
Definition R_SR : nat := 1.
Definition R_SA : nat := 6.
Definition R_SA_MSB : nat := 7.
Definition R_DA : nat := 8.
Definition R_DA_MSB : nat := 9.
Definition R_BTT : nat := 10.
Definition R_MAX : nat := 11.
Definition CR_RESET : N := 4.
Definition SR_IDLE : N := 2.
Definition SR_IOC_IRQ : N := 4096.

Definition reg (regs : list N) (i : nat) : N := nth i regs 0.

(** l.91-97: (msb << 32) | lsb *)
Definition reg64 (regs : list N) (msb lsb : nat) : N :=
  N.lor (N.shiftl (reg regs msb) 32 mod u64) (reg regs lsb).

(** do_dma_trans, l.121-135 *)
Definition dma_gp (c : command) (buf : list N) (addr : N) : gp :=
  mkGp c addr buf None (N.of_nat (length buf)) St_INCOMPLETE.

(** One iteration of do_dma_copy after the wait, l.88-117.  [junk] is the
    content of the local buffer before the read.  The responses are ignored. *)
Definition cdma_block {S} (t : target S) (junk : list N) (regs : list N) (s : S) : list N * S :=
  let tlen := N.min (reg regs R_BTT) 64 in
  let sa := reg64 regs R_SA_MSB R_SA in
  let da := reg64 regs R_DA_MSB R_DA in
  let '(s1, (buf, _)) := t s (dma_gp C_READ (firstn (N.to_nat tlen) junk) sa) in
  let '(s2, (_, _)) := t s1 (dma_gp C_WRITE buf da) in
  let sa := (sa + tlen) mod u64 in
  let da := (da + tlen) mod u64 in
  let btt := reg regs R_BTT - tlen in
  let regs := set_reg regs R_BTT btt in
  let regs := set_reg regs R_SA (sa mod u32) in
  let regs := set_reg regs R_SA_MSB (N.shiftr sa 32) in
  let regs := set_reg regs R_DA (da mod u32) in
  let regs := set_reg regs R_DA_MSB (N.shiftr da 32) in
  let regs := if btt =? 0
              then set_reg regs R_SR (N.lor (reg regs R_SR) (N.lor SR_IDLE SR_IOC_IRQ))
              else regs in
  (regs, s2).

(** The loop until BTT is zero again; [fuel] bounds the blocks. *)
Fixpoint cdma_run {S} (fuel : nat) (t : target S) (junk : list N) (regs : list N) (s : S)
  : option (list N * S) :=
  if reg regs R_BTT =? 0 then Some (regs, s)
  else match fuel with
  | O => None
  | Datatypes.S fuel' => let '(regs', s') := cdma_block t junk regs s in cdma_run fuel' t junk regs' s'
  end.

(** b_transport, l.137-178: new registers, data, status.  The register number is
    not checked. *)
Definition cdma_transport (regs : list N) (g : gp) : res (list N * (list N * status)) :=
  if negb (g_len g =? 4) || match g_be g with None => false | Some _ => true end
  then Ok (regs, (g_data g, St_GENERIC))
  else
    let ix := N.to_nat (N.shiftr (g_addr g) 2) in
    match g_cmd g with
    | C_READ =>
      if (length regs <=? ix)%nat then UB
      else Ok (regs, (le_enc 4 (reg regs ix), St_OK))
    | C_WRITE =>
      let v := le_dec (g_data g) in
      if (length regs <=? ix)%nat then UB
      else
        let regs' :=
          if (ix =? R_CR)%nat then set_reg regs ix (N.ldiff v CR_RESET)
          else if (ix =? R_SR)%nat then set_reg regs ix (N.ldiff (reg regs ix) (N.land v SR_IOC_IRQ))
          else if (ix =? R_BTT)%nat
          then let r := set_reg regs ix v in set_reg r R_SR (N.ldiff (reg r R_SR) SR_IDLE)
          else set_reg regs ix v in
        Ok (regs', (g_data g, St_OK))
    | C_IGNORE => Ok (regs, (g_data g, St_OK))
    end.

Fixpoint cdma_writes (regs : list N) (gs : list gp) : res (list N) :=
  match gs with
  | [] => Ok regs
  | g :: gs' => rbind (cdma_transport regs g) (fun '(regs', (_, st)) =>
                  match st with St_OK => cdma_writes regs' gs' | _ => AssertFail end)
  end.
