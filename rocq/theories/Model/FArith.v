(** Multiplication, division, square root and fused multiply-add of floating-point vectors. *)
From Verif Require Export Model.Floats Spec.FloatArith.

(** f_mul.h: f32 27-42, f64 64-76, wider 45-93.  AltiVec without VSX has no multiplication:
    vec_madd with a zero addend. *)
Definition i_fmul (A : arch) (d : bool) (s : rsz) (a b : Z) : res Z :=
  let w := fw d in
  let z := fz (ftz A d) w in
  let x R := Ok (v2 w R (f_mul w) a b) in
  let hw := Ok (v2 w 128 (fun x y => z (f_mul w (z x) (z y))) a b) in
  let madd := Ok (v2 w 128 (fun x y => z (f_fma w (z x) (z y) 0)) a b) in
  fl_sizes A s (fl_ladder A d (x 128) (x 128) hw (if use_vsx206 A then x 128 else madd) (x 128)) (x 256) (x 512).

(** The hardware's reciprocal (square root) estimates of float32 lanes are a parameter [est]. *)
(** VRECPS: 2 - x*y, and 2 for infinity times zero; VRSQRTS: (3 - x*y)/2, and 1.5 *)
Definition inf_zero (x y : Z) : bool := f_isinf 32 x && f_zero 32 y || f_zero 32 x && f_isinf 32 y.
Definition neon_recps (x y : Z) : Z :=
  if inf_zero x y then 0x40000000 else f_flush 32 (f_sub 32 0x40000000 (f_flush 32 (f_mul 32 x y))).
Definition neon_rsqrts (x y : Z) : Z :=
  if inf_zero x y then 0x3fc00000
  else f_flush 32 (f_mul 32 0x3f000000 (f_sub 32 0x40400000 (f_flush 32 (f_mul 32 x y)))).
(** vec_nmsub: -(x*y - c) with one rounding *)
Definition ppc_nmsub (x y c : Z) : Z := let r := f_fms 32 x y c in if f_nan 32 r then r else f_opp 32 r.
(** f_rcp_rh.h:32-64, the NEON and AltiVec branches *)
Definition i_rcp_rh_est (A : arch) (x b : Z) : res Z :=
  let z := fz (ftz A false) 32 in
  let r := if use_altivec A then v2 32 128 (fun p q => z (ppc_nmsub (z p) (z q) 0x40000000)) x b
           else v2 32 128 (fun p q => neon_recps (z p) (z q)) b x in
  i_fmul A false R128 x r.
(** f_rsqrt_rh.h:42-76, the NEON and AltiVec branches *)
Definition i_rsqrt_rh_est (A : arch) (x a : Z) : res Z :=
  let z := fz (ftz A false) 32 in
  let* x2 := i_fmul A false R128 x x in
  if use_altivec A then
    let r := v2 32 128 (fun p q => z (ppc_nmsub (z p) (z q) 0x40400000)) a x2 in
    let* xp5 := i_fmul A false R128 x (splat 32 128 0x3f000000) in
    i_fmul A false R128 xp5 r
  else i_fmul A false R128 x (v2 32 128 (fun p q => neon_rsqrts (z p) (z q)) a x2).

(** f_div.h: f32 27-55, f64 77-93, wider 58-110 *)
Definition i_fdiv (est : Z -> Z) (A : arch) (d : bool) (s : rsz) (a b : Z) : res Z :=
  let w := fw d in
  let x R := Ok (v2 w R (f_div w) a b) in
  let approx :=
    let x0 := v1 32 128 est b in
    let* x1 := i_rcp_rh_est A x0 b in
    let* x2 := i_rcp_rh_est A x1 b in
    i_fmul A false R128 a x2 in
  fl_sizes A s (fl_ladder A d (x 128) (x 128) (if use_neon64 A then x 128 else approx)
    (if use_vsx206 A then x 128 else approx) (x 128)) (x 256) (x 512).
(** f_sqrt.h: f32 29-48, f64 76-92, wider 51-109.  The float32 branch for AltiVec is taken with
    VSX too. *)
Definition i_fsqrt (est : Z -> Z) (A : arch) (d : bool) (s : rsz) (a : Z) : res Z :=
  let w := fw d in
  let x R := Ok (v1 w R (f_sqrt w) a) in
  let approx :=
    let x0 := v1 32 128 est a in
    let* x1 := i_rsqrt_rh_est A x0 a in
    i_fmul A false R128 a x1 in
  fl_sizes A s (fl_ladder A d (x 128) (x 128) (if use_neon64 A then x 128 else approx)
    (if d then x 128 else approx) (x 128)) (x 256) (x 512).

(** f_fmadd.h:25-112, f_fmsub.h:25-112: NULL, FMA3, FMA4, NEON64, MSA; nothing else *)
Definition fma_sizes (A : arch) (s : rsz) (x neon msa : Z -> res Z) : res Z :=
  match s with
  | R128 =>
      if use_null A then x 128
      else if use_fma3 A then x 128
      else if use_fma4 A then x 128
      else if use_neon64 A then neon 128
      else if use_msa A then msa 128
      else NotImpl
  | R256 => if use_avx A then (if use_fma3 A then x 256 else if use_fma4 A then x 256 else NotImpl) else NotImpl
  | R512 => if use_avx512f A then x 512 else NotImpl
  end.
(** vfmaq(a, b, c) = a + b*c and vfmsq(a, b, c) = a - b*c; __msa_fmadd(c, a, b) = c + a*b and
    __msa_fmsub(c, a, b) = c - a*b *)
Definition neon_fma (w R a b c : Z) : Z := v3 w R (fun x y t => f_fma w y t x) a b c.
Definition neon_fms (w R a b c : Z) : Z := v3 w R (fun x y t => f_fma w (f_opp w y) t x) a b c.
Definition i_fmadd (A : arch) (d : bool) (s : rsz) (a b c : Z) : res Z :=
  let w := fw d in
  fma_sizes A s (fun R => Ok (v3 w R (f_fma w) a b c)) (fun R => Ok (neon_fma w R a b c)) (fun R => Ok (neon_fma w R c a b)).
Definition i_fmsub (A : arch) (d : bool) (s : rsz) (a b c : Z) : res Z :=
  let w := fw d in
  fma_sizes A s (fun R => Ok (v3 w R (f_fms w) a b c)) (fun R => Ok (neon_fms w R a b c)) (fun R => Ok (neon_fms w R c a b)).

(** core/f_mul.h:32-61, f_div.h, f_sqrt.h, f_fmadd.h:32-44, f_fmsub.h *)
Definition mul_f A d s := vec_impl2 (i_fmul A d s).
Definition div_f est A d s := vec_impl2 (i_fdiv est A d s).
Definition sqrt_f est A d s := vec_impl1 (i_fsqrt est A d s).
Definition fmadd_f A d s := vec_impl3 (i_fmadd A d s).
Definition fmsub_f A d s := vec_impl3 (i_fmsub A d s).
