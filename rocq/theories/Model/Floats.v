(** Floating-point bitwise operations, masks, selection, comparisons and sign operations.
    [d]: false = float32, true = float64.  Lanes are bit patterns. *)
From Verif Require Export Model.Blend Model.Cmp Spec.Floats.

Definition few (d : bool) : ew := if d then W64 else W32.
Definition fw (d : bool) : Z := wb (few d).

(** The shape of the 128-bit functions.  float32: NULL || NEON_NO_FLT_SP, SSE2, NEON, ALTIVEC,
    MSA; float64: SSE2, NEON64, VSX_206, MSA, and the scalar code elsewhere. *)
Definition fl_ladder {X} (A : arch) (d : bool) (nul x86 neon ppc msa : res X) : res X :=
  if d then
    if use_sse2 A then x86
    else if use_neon64 A then neon
    else if use_vsx206 A then ppc
    else if use_msa A then msa
    else if use_null A || use_neon32 A || use_altivec A then nul else UB
  else
    if use_null A || use_neon_no_flt_sp A then nul
    else if use_sse2 A then x86
    else if use_neon A then neon
    else if use_altivec A then ppc
    else if use_msa A then msa else UB.
(** 256 bits under AVX, 512 bits under AVX512F *)
Definition fl_sizes {X} (A : arch) (s : rsz) (x128 x256 x512 : res X) : res X :=
  match s with
  | R128 => x128
  | R256 => if use_avx A then x256 else NotImpl
  | R512 => if use_avx512f A then x512 else NotImpl
  end.

(** Hardware units that treat denormal float32 lanes as zero: NEON of 32-bit ARM, and AltiVec
    (non-Java mode, the default) when VSX is not used. *)
Definition ftz (A : arch) (d : bool) : bool :=
  negb d && ((use_neon_flt_sp A && negb (use_64 A)) || (use_altivec A && negb (use_vsx206 A))).
Definition fz (z : bool) (w x : Z) : Z := if z then f_flush w x else x.

(** Storage of float masks: types/float32x4.h:115-127, float64x2.h:112-124, float32x8.h,
    float64x4.h, float32x16.h, float64x8.h. *)
Definition mk_flt (A : arch) (d : bool) (s : rsz) : mkind :=
  match s with
  | R128 =>
      if use_avx512vl A then KBits
      else if d then
        if use_sse2 A || use_neon64 A || use_vsx206 A || use_msa A then KVec else KNull
      else if use_null A || use_neon_no_flt_sp A then KNull else KVec
  | R256 => if use_avx512vl A then KBits else KVec
  | R512 => KBits
  end.
(** unmask(): float32x4.h, float64x2.h:155-164, float32x16.h:114-120, float64x8.h:121-127 *)
Definition unmask_f (A : arch) (d : bool) (s : rsz) (m : Z) : res Z :=
  match mk_flt A d s with
  | KNull => null_unmask (ut (few d)) (rbits s) m
  | KVec => Ok m
  | KBits => match s with
             | R512 => Ok (mm_maskz_set1 (fw d) 512 m (ones (fw d)))
             | _ => Ok (mm_movm (fw d) (rbits s) m)
             end
  end.

(** Bitwise operations.  bit_and.h, bit_andnot.h: f32 404-437, f64 511-544; bit_or.h: f32
    270-303, f64 343-376; bit_xor.h: f32 270-303, f64 345-378.  (_mm512_and_ps needs AVX512DQ;
    without it the same bits are computed on integers.) *)
Definition fbit (nul : cty -> Z -> Z -> Z -> res Z) (sse neon ppc msa : Z -> Z -> Z)
    (A : arch) (d : bool) (s : rsz) (a b : Z) : res Z :=
  fl_sizes A s
    (fl_ladder A d (nul (ut (few d)) 128 a b) (Ok (sse a b)) (Ok (neon a b)) (Ok (ppc a b)) (Ok (msa a b)))
    (Ok (sse a b)) (Ok (sse a b)).
Definition f_bit_and := fbit null_bit_and mm_and vandq vec_and msa_and.
Definition f_bit_andnot := fbit null_bit_andnot (fun a b => mm_andnot b a) vbicq vec_andc (fun a b => msa_and a (msa_nor b b)).
Definition f_bit_or := fbit null_bit_or mm_or vorrq vec_or msa_or.
Definition f_bit_xor := fbit null_bit_xor mm_xor veorq vec_xor msa_xor.
(** A scalar operand of a bitwise operation on floats is converted bit for bit and splatted
    (detail/expr/scalar.h:44-51). *)
Definition fconst (d : bool) (s : rsz) (v : Z) : Z := splat (fw d) (rbits s) v.
(** bit_not.h: f32 228-257, f64 262-291 *)
Definition f_bit_not (A : arch) (d : bool) (s : rsz) (a : Z) : res Z :=
  let x := f_bit_xor A d s a (fconst d s (ones (fw d))) in
  let via := i_bit_not A (few d) R128 a in
  fl_sizes A s
    (if use_sse2 A then x
     else if (if d then use_neon64 A else use_neon_flt_sp A) then Ok (vmvnq a)
     else if (if d then use_vsx206 A else use_altivec A) then Ok (vec_nor a a)
     else via)
    x (Ok (mm_ternarylogic 512 a a a 1)).

(** Scalar comparison loops (null/compare.h): m.el(i) = a.el(i) OP b.el(i) ? 1 : 0 *)
Definition null_fcmp (w : Z) (p : Z -> Z -> bool) (a b : Z) : res Z :=
  Ok (pack 8 (8 * (128 / w)) (fun i => Z.b2z (p (lane w i a) (lane w i b)))).
Definition mm_cmp_f (w R : Z) (p : Z -> Z -> bool) := v2 w R (fun x y => tf w (p x y)).
Definition mm_cmp_f_mask (w R : Z) (p : Z -> Z -> bool) (a b : Z) := kmask w R (fun i => p (lane w i a) (lane w i b)).
(** The comparisons: scalar code [nul], x86 predicate [p], NEON / AltiVec code [neon], MSA
    instruction predicate [q] (MSA has no "greater": the operands are swapped). *)
Definition fcmp (A : arch) (d : bool) (s : rsz) (p q : Z -> Z -> bool) (nul neon : res Z) (a b : Z) : res Z :=
  let w := fw d in
  let x86 R := if use_avx512vl A then Ok (mm_cmp_f_mask w R p a b) else Ok (mm_cmp_f w R p a b) in
  fl_sizes A s
    (fl_ladder A d nul (x86 128) neon neon (Ok (mm_cmp_f w 128 q a b)))
    (x86 256) (Ok (mm_cmp_f_mask w 512 p a b)).
Definition fcmp_d (p q : Z -> Z -> Z -> bool) (A : arch) (d : bool) (s : rsz) (a b : Z) : res Z :=
  let w := fw d in
  let z := fz (ftz A d) w in
  fcmp A d s (p w) (q w) (null_fcmp w (p w) a b) (Ok (mm_cmp_f w 128 (fun x y => p w (z x) (z y)) a b)) a b.
(** cmp_eq.h f32 274-334, f64 339-401; cmp_lt.h 382-472; cmp_le.h 322-412;
    cmp_gt.h 386-476 and cmp_ge.h 323-413 (MSA: fclt(b, a), fcle(b, a)) *)
Definition f_cmp_eq := fcmp_d f_eq f_eq.
Definition f_cmp_lt := fcmp_d f_lt f_lt.
Definition f_cmp_le := fcmp_d f_le f_le.
Definition f_cmp_gt := fcmp_d (fun w x y => f_lt w y x) (fun w x y => f_lt w y x).
Definition f_cmp_ge := fcmp_d (fun w x y => f_le w y x) (fun w x y => f_le w y x).

(** conv_to_mask.inl: f32 158-193, f64 198-228.  The KNull rungs compare with zero
    (cmp_neq.h: bit_not(cmp_eq(a, 0)) without hardware floats, else a scalar loop: the
    same 0/1 array). *)
Definition f_to_mask (A : arch) (d : bool) (s : rsz) (a : Z) : res Z :=
  match mk_flt A d s with
  | KNull => null_fcmp (fw d) (f_neq (fw d)) a 0
  | KBits => Ok (mm_test_mask (fw d) (rbits s) a a)
  | KVec => Ok a
  end.
(** bit_not.h masks: f32 296-319, f64 324-347 *)
Definition f_bit_not_m (A : arch) (d : bool) (s : rsz) (m : Z) : res Z :=
  let via := let* v := unmask_f A d s m in let* r := f_bit_not A d s v in f_to_mask A d s r in
  fl_sizes A s
    (if use_null A || (if d then use_neon32 A || (use_altivec A && negb (use_vsx206 A)) else use_neon_no_flt_sp A)
     then null_bit_not_mm (128 / fw d) m else via)
    via (Ok (mm512_knot m)).
(** cmp_neq.h: f32 247-304, f64 309-368 *)
Definition f_cmp_neq (A : arch) (d : bool) (s : rsz) (a b : Z) : res Z :=
  let w := fw d in
  let nul := null_fcmp w (f_neq w) a b in
  let via := let* m := f_cmp_eq A d s a b in f_bit_not_m A d s m in
  fcmp A d s (f_neq w) (f_neq w) (if negb d && use_neon_no_flt_sp A then via else nul) via a b.

(** mask operands of the bitwise operations *)
Definition null128 (A : arch) (d : bool) : bool :=
  use_null A || (if d then use_neon32 A || (use_altivec A && negb (use_vsx206 A)) else use_neon_no_flt_sp A).
(** bit_and.h, bit_andnot.h, vector and mask: f32 443-472, f64 550-579 *)
Definition f_bit_and_vm (A : arch) (d : bool) (s : rsz) (a m : Z) : res Z :=
  let via := let* v := unmask_f A d s m in f_bit_and A d s a v in
  let mz := Ok (mm_maskz_mov (fw d) (rbits s) m a) in
  fl_sizes A s
    (if use_null A then null_bit_and_vm (ut (few d)) 128 a m else if use_avx512vl A then mz else via)
    (if use_avx512vl A then mz else via) mz.
Definition f_bit_andnot_vm (A : arch) (d : bool) (s : rsz) (a m : Z) : res Z :=
  let via := let* v := unmask_f A d s m in f_bit_andnot A d s a v in
  let mz := Ok (mm_maskz_mov (fw d) (rbits s) (k_not 8 m) a) in
  fl_sizes A s
    (if use_null A then null_bit_andnot_vm (ut (few d)) 128 a m else if use_avx512vl A then mz else via)
    (if use_avx512vl A then mz else via) (Ok (mm_maskz_mov (fw d) 512 (mm512_knot m) a)).
(** two masks: bit_and.h, bit_andnot.h f32 477-506, f64 584-613; bit_or.h f32 309-338, f64
    382-411; bit_xor.h same *)
Definition f_mm (A : arch) (d : bool) (s : rsz) (nul : Z -> Z -> Z -> res Z) (kvl k512 : Z -> Z -> Z)
    (vop : Z -> Z -> res Z) (a b : Z) : res Z :=
  let via := let* x := unmask_f A d s a in let* y := unmask_f A d s b in
             let* r := vop x y in f_to_mask A d s r in
  let x86 := if use_avx512vl A then Ok (kvl a b) else via in
  fl_sizes A s (if null128 A d then nul (128 / fw d) a b else x86) x86 (Ok (k512 a b)).
Definition f_bit_and_mm A d s := f_mm A d s null_bit_and_mm mm512_kand mm512_kand (f_bit_and A d s).
Definition f_bit_andnot_mm A d s := f_mm A d s null_bit_andnot_mm (fun a b => k_andnot 8 b a) (fun a b => mm512_kandn b a) (f_bit_andnot A d s).
Definition f_bit_or_mm A d s := f_mm A d s null_bit_or_mm k_or mm512_kor (f_bit_or A d s).
Definition f_bit_xor_mm A d s := f_mm A d s null_bit_xor_mm k_xor mm512_kxor (f_bit_xor A d s).

(** comparisons of two masks exist with AVX512 only: cmp_eq.h float32<4> 293-299, <8> 314-320,
    <16> 329-333, float64<2> 360-366, <4> 381-387, <8> 396-400; cmp_neq.h float32<4> 264-270,
    <8> 284-290, <16> 299-303, float64<2> 328-334, <4> 348-354, <8> 363-367 *)
Definition f_mask_cmp_here (A : arch) (s : rsz) : bool := match s with R512 => use_avx512f A | _ => use_avx512vl A end.
Definition f_cmp_eq_mm (A : arch) (d : bool) (s : rsz) (a b : Z) : res Z :=
  if f_mask_cmp_here A s then Ok (mm512_kxnor a b) else NotImpl.
Definition f_cmp_neq_mm (A : arch) (d : bool) (s : rsz) (a b : Z) : res Z :=
  if f_mask_cmp_here A s then Ok (mm512_kxor a b) else NotImpl.

(** f_isnan.h: f32 26-61, f64 66-101; f_isnan2.h: f32 28-63, f64 68-103 *)
Definition f_isnan (A : arch) (d : bool) (s : rsz) (a : Z) : res Z :=
  let w := fw d in
  fcmp A d s (f_unord w) (f_unord w) (null_fcmp w (fun x _ => f_nan w x) a a) (f_cmp_neq A d s a a) a a.
Definition f_isnan2 (A : arch) (d : bool) (s : rsz) (a b : Z) : res Z :=
  let w := fw d in
  let both := let* x := f_isnan A d s a in let* y := f_isnan A d s b in f_bit_or_mm A d s x y in
  fcmp A d s (f_unord w) (f_unord w)
    (if negb d && use_neon_no_flt_sp A then both else null_fcmp w (fun x y => f_nan w x || f_nan w y) a b) both a b.

(** blend.h / bit_select.h on vectors *)
Definition f_sel3 (A : arch) (d : bool) (s : rsz) (on off m : Z) : res Z :=
  let* x := f_bit_and A d s on m in
  let* y := f_bit_andnot A d s off m in
  f_bit_or A d s x y.
(** the sign bit of each mask lane selects *)
Definition mm_blendv_f (w R : Z) (a b m : Z) : Z := v3 w R (fun x y z => if Z.testbit z (w - 1) then y else x) a b m.
(** blend.h: f32 332-372, f64 549-591.  [gcc_noavx2]: the 256-bit float64 version avoids blendv
    on gcc without AVX2. *)
Definition f_blend (A : arch) (d : bool) (s : rsz) (on off m : Z) : res Z :=
  let w := fw d in
  fl_sizes A s
    (fl_ladder A d (null_bit_select (ut (few d)) 128 on off m)
       (if use_avx A then Ok (mm_blendv_f w 128 off on m) else f_sel3 A d s on off m)
       (Ok (vbslq m on off)) (Ok (vec_sel off on m)) (Ok (msa_bsel m off on)))
    (if d && negb (use_avx2 A) && cc_gnuc A then f_sel3 A d s on off m else Ok (mm_blendv_f w 256 off on m))
    (Ok (mm_ternarylogic 512 on off m 0xe4)).
(** bit_select.h: f32 341-390, f64 575-624 *)
Definition f_bit_select (A : arch) (d : bool) (s : rsz) (on off m : Z) : res Z :=
  let x86 := if use_avx512vl A then Ok (mm_ternarylogic (rbits s) on off m 0xe4) else f_sel3 A d s on off m in
  fl_sizes A s
    (fl_ladder A d (null_bit_select (ut (few d)) 128 on off m) x86
       (Ok (vbslq m on off)) (Ok (vec_sel off on m)) (Ok (msa_bsel m off on)))
    x86 (Ok (mm_ternarylogic 512 on off m 0xe4)).
(** vector, vector, mask.  blend.h f32 378-407, f64 597-626; bit_select.h f32 396-425, f64
    630-657 (the 128-bit float64 bit_select has no AVX512VL rung: [vl]).  float32 uses the
    scalar code only when NULL. *)
Definition f_sel_m (A : arch) (d : bool) (s : rsz) (vl : bool) (sel : Z -> Z -> Z -> res Z) (on off m : Z) : res Z :=
  let via := let* v := unmask_f A d s m in sel on off v in
  let mb := Ok (mm_mask_blend (fw d) (rbits s) m off on) in
  fl_sizes A s
    (if (if d then null128 A d else use_null A) then null_blend_mask (ut (few d)) 128 on off m
     else if vl && use_avx512vl A then mb else via)
    (if use_avx512vl A then mb else via) mb.
Definition f_blend_m A d s := f_sel_m A d s true (f_blend A d s).
Definition f_bit_select_m A d s := f_sel_m A d s (negb d) (f_bit_select A d s).
(** three masks: blend.h f32 413-443, f64 632-662; bit_select.h f32 431-461, f64 663-693, whose
    scalar float64 rung calls null::bit_select on masks, which does not compile (masks have no
    element_type): [nulmm] *)
Definition f_sel_mm (A : arch) (d : bool) (s : rsz) (nulmm : Z -> Z -> Z -> Z -> res Z)
    (sel : Z -> Z -> Z -> res Z) (on off m : Z) : res Z :=
  let kop := Ok (k_or (k_and on m) (k_andnot 8 m off)) in
  let via := let* x := unmask_f A d s on in let* y := unmask_f A d s off in
             let* v := unmask_f A d s m in let* r := sel x y v in f_to_mask A d s r in
  let x86 := if use_avx512vl A then kop else via in
  fl_sizes A s (if null128 A d then nulmm (128 / fw d) on off m else x86) x86
    (Ok (mm512_kor (mm512_kand on m) (mm512_kandn m off))).
Definition f_blend_mm A d s := f_sel_mm A d s null_blend_mask_mm (f_blend A d s).
Definition f_bit_select_mm A d s :=
  f_sel_mm A d s (if d then fun _ _ _ _ => NotImpl else null_blend_mask_mm) (f_bit_select A d s).

(** Sign operations.  f_abs.h: f32 26-54, f64 59-87.  std::abs, vabsq_f, vec_abs clear the
    sign bit. *)
Definition clr_sign (w R a : Z) : Z := v1 w R (fun x => f_mag w x) a.
Definition flip_sign (w R a : Z) : Z := v1 w R (fun x => f_opp w x) a.
Definition i_fabs (A : arch) (d : bool) (s : rsz) (a : Z) : res Z :=
  let w := fw d in
  let x := f_bit_and A d s a (fconst d s (2 ^ (w - 1) - 1)) in
  let hw := Ok (clr_sign w 128 a) in
  fl_sizes A s (fl_ladder A d hw x hw hw x) x x.
(** f_neg.h: f32 26-53, f64 58-84.  AltiVec and VSX use bit_xor; unary minus and vnegq_f flip
    the sign bit. *)
Definition i_fneg (A : arch) (d : bool) (s : rsz) (a : Z) : res Z :=
  let w := fw d in
  let x := f_bit_xor A d s a (fconst d s (2 ^ (w - 1))) in
  let hw := Ok (flip_sign w 128 a) in
  fl_sizes A s (fl_ladder A d hw x hw x x) x x.
(** f_sign.h:25-35 *)
Definition i_sign (A : arch) (d : bool) (s : rsz) (a : Z) : res Z :=
  f_bit_and A d s a (fconst d s (2 ^ (fw d - 1))).
(** core/f_copysign.h:29-41: bit_select(s, m, mask) *)
Definition i_copysign (A : arch) (d : bool) (s : rsz) (m sg : Z) : res Z :=
  f_bit_select A d s sg m (fconst d s (2 ^ (fw d - 1))).

(** f_add.h: f32 25-54, f64 59-88; f_sub.h: f32 25-54, f64 65-94.  The vector units that flush
    denormals flush operands and results. *)
Definition farith (op : Z -> Z -> Z -> Z) (A : arch) (d : bool) (s : rsz) (a b : Z) : res Z :=
  let w := fw d in
  let z := fz (ftz A d) w in
  let x R := Ok (v2 w R (op w) a b) in
  let hw := Ok (v2 w 128 (fun x y => z (op w (z x) (z y))) a b) in
  fl_sizes A s (fl_ladder A d (x 128) (x 128) hw hw (x 128)) (x 256) (x 512).
Definition i_fadd := farith f_add.
Definition i_fsub := farith f_sub.
(** core/f_isfinite.h:30-56: null::isfinite without SIMD, else (a - a) == make_zero() *)
Definition i_isfinite (A : arch) (d : bool) (s : rsz) (a : Z) : res Z :=
  let w := fw d in
  if use_null A then null_fcmp w (fun x _ => negb (f_nan w x || f_isinf w x)) a a
  else let* t := i_fsub A d s a a in f_cmp_eq A d s t 0.

(** Public API: every register of the vectors (SIMDPP_VEC_ARRAY_IMPL trailers). *)
Definition bit_and_f A d s := vec_impl2 (f_bit_and A d s).
Definition bit_andnot_f A d s := vec_impl2 (f_bit_andnot A d s).
Definition bit_or_f A d s := vec_impl2 (f_bit_or A d s).
Definition bit_xor_f A d s := vec_impl2 (f_bit_xor A d s).
Definition bit_not_f A d s := vec_impl1 (f_bit_not A d s).
Definition bit_and_f_vm A d s := vec_impl2 (f_bit_and_vm A d s).
Definition bit_andnot_f_vm A d s := vec_impl2 (f_bit_andnot_vm A d s).
Definition bit_and_f_mm A d s := vec_impl2 (f_bit_and_mm A d s).
Definition bit_andnot_f_mm A d s := vec_impl2 (f_bit_andnot_mm A d s).
Definition bit_or_f_mm A d s := vec_impl2 (f_bit_or_mm A d s).
Definition bit_xor_f_mm A d s := vec_impl2 (f_bit_xor_mm A d s).
Definition bit_not_f_m A d s := vec_impl1 (f_bit_not_m A d s).
Definition to_mask_f A d s := vec_impl1 (f_to_mask A d s).
Definition unmask_f_v A d s := vec_impl1 (unmask_f A d s).
Definition cmp_eq_f A d s := vec_impl2 (f_cmp_eq A d s).
Definition cmp_neq_f A d s := vec_impl2 (f_cmp_neq A d s).
Definition cmp_lt_f A d s := vec_impl2 (f_cmp_lt A d s).
Definition cmp_le_f A d s := vec_impl2 (f_cmp_le A d s).
Definition cmp_gt_f A d s := vec_impl2 (f_cmp_gt A d s).
Definition cmp_ge_f A d s := vec_impl2 (f_cmp_ge A d s).
Definition cmp_eq_f_mm A d s := vec_impl2 (f_cmp_eq_mm A d s).
Definition cmp_neq_f_mm A d s := vec_impl2 (f_cmp_neq_mm A d s).
Definition isnan_f A d s := vec_impl1 (f_isnan A d s).
Definition isnan2_f A d s := vec_impl2 (f_isnan2 A d s).
Definition isfinite_f A d s := vec_impl1 (i_isfinite A d s).
Definition blend_f A d s := vec_impl3 (f_blend A d s).
Definition blend_f_m A d s := vec_impl3 (f_blend_m A d s).
Definition blend_f_mm A d s := vec_impl3 (f_blend_mm A d s).
Definition bit_select_f A d s := vec_impl3 (f_bit_select A d s).
Definition bit_select_f_m A d s := vec_impl3 (f_bit_select_m A d s).
Definition bit_select_f_mm A d s := vec_impl3 (f_bit_select_mm A d s).
Definition abs_f A d s := vec_impl1 (i_fabs A d s).
Definition neg_f A d s := vec_impl1 (i_fneg A d s).
Definition sign_f A d s := vec_impl1 (i_sign A d s).
Definition copysign_f A d s := vec_impl2 (i_copysign A d s).
Definition add_f A d s := vec_impl2 (i_fadd A d s).
Definition sub_f A d s := vec_impl2 (i_fsub A d s).
