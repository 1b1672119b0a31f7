(** MIPS MSA intrinsics, from the MIPS SIMD Architecture module manual.
    Part of the trusted base. *)
From Verif Require Export Base.Isa Base.X86.

Definition msa_lit w (f : Z -> Z) := pack w 128 f.
Definition msa_addv w := v2 w 128 (fun x y => x + y).
Definition msa_subv w := v2 w 128 (fun x y => x - y).
Definition msa_adds_u w := v2 w 128 (fun x y => satu w (x + y)).
Definition msa_subs_u w := v2 w 128 (fun x y => satu w (x - y)).
Definition msa_adds_s w := v2 w 128 (fun x y => sats w (sgn w x + sgn w y)).
Definition msa_subs_s w := v2 w 128 (fun x y => sats w (sgn w x - sgn w y)).
(** ADD_A: sum of absolute values *)
Definition msa_add_a w := v2 w 128 (fun x y => Z.abs (sgn w x) + Z.abs (sgn w y)).
Definition msa_mulv w := v2 w 128 (fun x y => sgn w x * sgn w y).
Definition msa_min_u w := v2 w 128 (fun x y => if x <? y then x else y).
Definition msa_max_u w := v2 w 128 (fun x y => if y <? x then x else y).
Definition msa_min_s w := v2 w 128 (fun x y => if sgn w x <? sgn w y then x else y).
Definition msa_max_s w := v2 w 128 (fun x y => if sgn w y <? sgn w x then x else y).
Definition msa_aver_u w := v2 w 128 (fun x y => Z.shiftr (x + y + 1) 1).
Definition msa_aver_s w := v2 w 128 (fun x y => Z.shiftr (sgn w x + sgn w y + 1) 1).
Definition msa_ave_u w := v2 w 128 (fun x y => Z.shiftr (x + y) 1).
Definition msa_ave_s w := v2 w 128 (fun x y => Z.shiftr (sgn w x + sgn w y) 1).
Definition msa_and (a b : Z) := Z.land a b.
Definition msa_or (a b : Z) := Z.lor a b.
Definition msa_xor (a b : Z) := Z.lxor a b.
Definition msa_nor (a b : Z) := v2 8 128 (fun x y => Z.lnot (Z.lor x y)) a b.
(** BSEL.V bsel(m, a, b): where a mask bit is 0 take a, where it is 1 take b *)
Definition msa_bsel (m a b : Z) := Z.lor (Z.ldiff a m) (Z.land b m).
Definition msa_ceq w := v2 w 128 (fun x y => tf w (x =? y)).
Definition msa_clt_u w := v2 w 128 (fun x y => tf w (x <? y)).
Definition msa_clt_s w := v2 w 128 (fun x y => tf w (sgn w x <? sgn w y)).
Definition msa_cle_u w := v2 w 128 (fun x y => tf w (x <=? y)).
Definition msa_cle_s w := v2 w 128 (fun x y => tf w (sgn w x <=? sgn w y)).

#[global] Hint Unfold msa_lit msa_addv msa_subv msa_adds_u msa_subs_u msa_adds_s msa_subs_s
  msa_add_a msa_mulv msa_min_u msa_max_u msa_min_s msa_max_s msa_aver_u msa_aver_s msa_ave_u
  msa_ave_s msa_and msa_or msa_xor msa_nor msa_bsel msa_ceq msa_clt_u msa_clt_s msa_cle_u
  msa_cle_s : isa.
