(** math/log2_approx.h: an approximation of the base-2 logarithm, and the float constants it uses
    (detail/insn/make_const.h). *)
From Verif Require Export Model.FConv Model.FArith Model.Blend Model.Shift Model.Arith Model.BitApi.

(** make_const.h:29-47 (N = 1, NEON), 49-93: make_float(c) and scalar operands of float32
    functions, one element; the value is already converted to float. *)
Definition i_make_float (A : arch) (s : rsz) (c : Z) : res Z :=
  match s with
  | R128 =>
      if use_neon_flt_sp A then Ok (vdupq 32 c)
      else if use_null A || use_neon_no_flt_sp A then Ok (null_make_vec 32 128 (fun _ => c))
      else if use_sse2 A then Ok (mm_set 32 128 (fun _ => c))
      else if use_altivec A then Ok (vec_lit 32 (fun _ => c))
      else if use_msa A then Ok (msa_lit 32 (fun _ => c)) else UB
  | R256 => if use_avx A then Ok (mm_set 32 256 (fun _ => c)) else NotImpl
  | R512 => if use_avx512f A then Ok (mm_set 32 512 (fun _ => c)) else NotImpl
  end.
(** make_const.h:494-503 *)
Fixpoint make_float (A : arch) (s : rsz) (c : Z) (n : nat) : res vec :=
  match n with
  | O => Ok []
  | S n => let* r := i_make_float A s c in let* rs := make_float A s c n in Ok (r :: rs)
  end.

(** the literals -0.34484362f, 2.02466192f and 0.67487591f of lines 43-44 *)
Definition log2_c2 : Z := 0xbeb08f58.
Definition log2_c1 : Z := 0x40019410.
Definition log2_c0 : Z := 0x3f2cc4ab.

(** log2_approx.h:27-49 log2_approx_positive_finite, and 69-80, the same code in log2_approx.
    The scalar operands become one-element constants (core/detail/scalar_arg_impl.h:20-42). *)
Definition log2_approx_positive_finite (A : arch) (T : Z) (a : vec) : res vec :=
  let sF := vregf A T in let nF := Z.to_nat (T / rbits sF) in
  let sI := vreg A 32 T in let nI := Z.to_nat (T / rbits sI) in
  let* exponent_mask := make_const A W32 sI [0x7f800000] nI in
  let* exponent_for_1 := make_const A W32 sI [0x3f800000] nI in
  let* a_int := bit_cast A TFlt (TInt W32) T a in
  let* sh := shift_r_t A false W32 sI 23 a_int in
  let* kff := make_const A W32 sI [0xff] nI in
  let* a_exponent_int := bit_and A W32 sI sh kff in
  let* k128 := make_const A W32 sI [128] nI in
  let* ei := bit_cast A (TInt W32) (TInt W32) T a_exponent_int in
  let* e := sub A W32 sI ei k128 in
  let* res := to_float32_i A T e in
  let* mi := bit_select A W32 sI exponent_for_1 a_int exponent_mask in
  let* mantissa := bit_cast A (TInt W32) TFlt T mi in
  let* c2 := make_float A sF log2_c2 nF in
  let* t := mul_f A false sF c2 mantissa in
  let* c1 := make_float A sF log2_c1 nF in
  let* t := add_f A false sF t c1 in
  let* t := mul_f A false sF t mantissa in
  let* c0 := make_float A sF log2_c0 nF in
  let* t := sub_f A false sF t c0 in
  add_f A false sF res t.

(** log2_approx.h:56-91 *)
Definition log2_approx (A : arch) (T : Z) (a : vec) : res vec :=
  let sF := vregf A T in let nF := Z.to_nat (T / rbits sF) in
  let* neg_infinity := make_float A sF 0xff800000 nF in
  let* z := make_float A sF 0 nF in
  let* nan_mask := cmp_lt_f A false sF a z in
  let* zero_mask := cmp_eq_f A false sF a z in
  let* finite_mask := isfinite_f A false sF a in
  let* res := log2_approx_positive_finite A T a in
  let* res := blend_f_m A false sF res a finite_mask in
  let* res := blend_f_m A false sF neg_infinity res zero_mask in
  let* nm := unmask_f_v A false sF nan_mask in
  bit_or_f A false sF res nm.
