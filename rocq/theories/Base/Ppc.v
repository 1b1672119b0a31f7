(** POWER AltiVec / VSX intrinsics (little-endian element numbering), from the
    POWER vector intrinsics reference.  Part of the trusted base. *)
From Verif Require Export Base.Isa Base.X86.

(** vector literal *)
Definition vec_lit w (f : Z -> Z) := pack w 128 f.
Definition vec_add w := v2 w 128 (fun x y => x + y).
Definition vec_sub w := v2 w 128 (fun x y => x - y).
Definition vec_adds_u w := v2 w 128 (fun x y => satu w (x + y)).
Definition vec_subs_u w := v2 w 128 (fun x y => satu w (x - y)).
Definition vec_adds_s w := v2 w 128 (fun x y => sats w (sgn w x + sgn w y)).
Definition vec_subs_s w := v2 w 128 (fun x y => sats w (sgn w x - sgn w y)).
(** vec_abs is max(a, 0 - a) *)
Definition vec_abs w := v1 w 128 (fun x => Z.abs (sgn w x)).
(** vmladduhm: low halves of a*b + c, 16-bit *)
Definition vec_mladd (a b c : Z) := v3 16 128 (fun x y z => x * y + z) a b c.
(** vmuluwm *)
Definition vec_vmuluwm := v2 32 128 (fun x y => x * y).
(** products of the even (odd) numbered lanes, w -> 2w bits *)
Definition vec_mule_u w (a b : Z) := pack (w * 2) 128 (fun i => lane w (2 * i) a * lane w (2 * i) b).
Definition vec_mulo_u w (a b : Z) := pack (w * 2) 128 (fun i => lane w (2 * i + 1) a * lane w (2 * i + 1) b).
Definition vec_mule_s w (a b : Z) :=
  pack (w * 2) 128 (fun i => sgn w (lane w (2 * i) a) * sgn w (lane w (2 * i) b)).
Definition vec_mulo_s w (a b : Z) :=
  pack (w * 2) 128 (fun i => sgn w (lane w (2 * i + 1) a) * sgn w (lane w (2 * i + 1) b)).
Definition vec_min_u w := v2 w 128 (fun x y => if x <? y then x else y).
Definition vec_max_u w := v2 w 128 (fun x y => if y <? x then x else y).
Definition vec_min_s w := v2 w 128 (fun x y => if sgn w x <? sgn w y then x else y).
Definition vec_max_s w := v2 w 128 (fun x y => if sgn w y <? sgn w x then x else y).
Definition vec_avg_u w := v2 w 128 (fun x y => Z.shiftr (x + y + 1) 1).
Definition vec_avg_s w := v2 w 128 (fun x y => Z.shiftr (sgn w x + sgn w y + 1) 1).
Definition vec_and (a b : Z) := Z.land a b.
Definition vec_andc (a b : Z) := Z.ldiff a b.
Definition vec_or (a b : Z) := Z.lor a b.
Definition vec_xor (a b : Z) := Z.lxor a b.
Definition vec_nor (a b : Z) := v2 8 128 (fun x y => Z.lnot (Z.lor x y)) a b.
(** vec_sel(a, b, m): m ? b : a, bit-wise *)
Definition vec_sel (a b m : Z) := Z.lor (Z.ldiff a m) (Z.land b m).
Definition vec_cmpeq w := v2 w 128 (fun x y => tf w (x =? y)).
Definition vec_cmpgt_u w := v2 w 128 (fun x y => tf w (y <? x)).
Definition vec_cmpgt_s w := v2 w 128 (fun x y => tf w (sgn w y <? sgn w x)).
Definition vec_cmplt_u w := v2 w 128 (fun x y => tf w (x <? y)).
Definition vec_cmplt_s w := v2 w 128 (fun x y => tf w (sgn w x <? sgn w y)).

#[global] Hint Unfold vec_lit vec_add vec_sub vec_adds_u vec_subs_u vec_adds_s vec_subs_s vec_abs
  vec_mladd vec_vmuluwm vec_mule_u vec_mulo_u vec_mule_s vec_mulo_s vec_min_u vec_max_u vec_min_s
  vec_max_s vec_avg_u vec_avg_s vec_and vec_andc vec_or vec_xor vec_nor vec_sel vec_cmpeq
  vec_cmpgt_u vec_cmpgt_s vec_cmplt_u vec_cmplt_s : isa.
