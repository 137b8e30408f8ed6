(** Model of tlm-modules/tlm-wrap-expander.h (class tlm_wrap_expander).

    [t w] is the downstream target when the payload's wrap attribute
    (genattr_extension::get_wrap) is [w]; the other attributes are cloned by
    deep_copy_from and are not represented.  Delay, DMI hint and allocation
    failure of [be] are not modelled. *)
From Verif Require Import Base TlmModel TlmSpec.
Open Scope N_scope.

(** tlm_wrap_expander::b_transport, l.65-164.  A wrapping payload of length
    zero divides by zero (l.76). *)
Definition we_transport {S} (two : bool) (t : bool -> target S) (s : S)
    (wrap : bool) (g : gp) : res (S * (list N * status)) :=
  if negb wrap then Ok (t false s g)                              (* l.158-163 *)
  else if g_len g =? 0 then UB
  else
    let len := g_len g in
    let base := g_addr g / len * len in                           (* l.76 *)
    let pos := (g_addr g - base) mod u32 in                       (* l.79, unsigned *)
    let be2 := match g_be g with None => [] | Some b => b ++ b end in  (* l.81-90 *)
    let window (o : N) :=
      if g_be_len g =? 0 then None
      else Some (slice (N.to_nat o) (N.to_nat (g_be_len g)) be2) in
    if two && negb (pos =? 0) then
      let len1 := len - pos in                                    (* l.99 *)
      let g1 := mkGp (g_cmd g) (g_addr g) (firstn (N.to_nat len1) (g_data g))
                     (window 0) (g_sw g) St_INCOMPLETE in         (* l.104-113 *)
      let '(s1, (d1, st1)) := t true s g1 in                      (* l.116 *)
      match st1 with
      | St_OK =>
        let g2 := mkGp (g_cmd g) base (skipn (N.to_nat len1) (g_data g))
                       (window (len1 mod g_be_len g)) (g_sw g) St_INCOMPLETE in
        let '(s2, (d2, st2)) := t true s1 g2 in                   (* l.122-135 *)
        Ok (s2, (d1 ++ d2, st2))
      | e => Ok (s1, (d1 ++ skipn (N.to_nat len1) (g_data g), e)) (* l.143-148 *)
      end
    else Ok (t true s (mkGp (g_cmd g) base (g_data g) (g_be g) (g_sw g) (g_status g))).
                                                                  (* l.149-154 *)
